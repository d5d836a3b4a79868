(** Descriptors and mappings, as the kernel keeps them. *)
From Verif Require Import Base Absl.

(** The calls a process makes to look at files. *)
Inductive sys_call :=
| Open (path : text) (ok : bool)
| Map (path : text) (size : N)
| Close (path : text)
| Unmap (path : text) (size : N).

(** What the process holds: open descriptors and mapped files, the latest first. *)
Record held := { h_open : list text; h_mapped : list (text * N) }.
Definition nothing_held : held := {| h_open := []; h_mapped := [] |}.

(** The effect of a call.  Only what is held can be given back, only a file that is open can be mapped; a mapping of 0 bytes is refused by
    the kernel, and so is the removal of one. *)
Inductive does : sys_call -> held -> held -> Prop :=
| does_open : forall p h, does (Open p true) h {| h_open := p :: h_open h; h_mapped := h_mapped h |}
| does_open_fail : forall p h, does (Open p false) h h
| does_map : forall p n h, In p (h_open h) -> 0 < n -> does (Map p n) h {| h_open := h_open h; h_mapped := (p, n) :: h_mapped h |}
| does_map_empty : forall p h, In p (h_open h) -> does (Map p 0) h h
| does_close : forall p fs m, does (Close p) {| h_open := p :: fs; h_mapped := m |} {| h_open := fs; h_mapped := m |}
| does_unmap : forall p n fs m, 0 < n -> does (Unmap p n) {| h_open := fs; h_mapped := (p, n) :: m |} {| h_open := fs; h_mapped := m |}
| does_unmap_empty : forall p h, does (Unmap p 0) h h.
Inductive does_all : list sys_call -> held -> held -> Prop :=
| does_nothing : forall h, does_all [] h h
| does_more : forall c l h h1 h2, does c h h1 -> does_all l h1 h2 -> does_all (c :: l) h h2.
