(** Common definitions of the model: outcomes, ordered maps (absl::btree_map),
    hash maps (absl::flat_hash_map), bytes and small list helpers.
    Definitions only; the facts are in BaseFacts.v. *)
From Coq Require Export Ascii String.
From Coq Require Export NArith ZArith Arith Lia Bool Permutation Sorted List.
Export ListNotations.
Close Scope string_scope.
Open Scope list_scope.
Open Scope N_scope.

(** The result of a run of a piece of C++ code.
    - [Ok a]    normal return of value [a]
    - [Err]     a non-OK absl::Status was returned (messages are not modelled)
    - [Crash]   the process is terminated deterministically: failed CHECK,
                exception thrown by [.at()] / [Span::subspan], failed assert
    - [UB]      undefined behaviour (out-of-bounds access, bad shift...)
    - [NoFuel]  the fuel given to the model of an unbounded loop ran out;
                "diverges" is [forall fuel, ... = NoFuel].
    [Err] stands for the returns of absl::Status / absl::StatusOr throughout database-parsers.cc,
    database.cc and assembler.cc (e.g. database-parsers.cc:62-72), [Crash] for CHECK (e.g.
    assembler.cc:73), RAPIDJSON_ASSERT and uncaught exceptions (e.g. assembler.cc:226). *)
Inductive outcome (A : Type) : Type :=
| Ok (a : A)
| Err
| Crash
| UB
| NoFuel.
Arguments Ok {A} a.
Arguments Err {A}.
Arguments Crash {A}.
Arguments UB {A}.
Arguments NoFuel {A}.

(** Early return of a non-OK status: ASSIGN_OR_RETURN, OK_OR_RETURN (database-parsers.cc:44-60), and
    sequencing in general. *)
Definition obind {A B} (o : outcome A) (f : A -> outcome B) : outcome B :=
  match o with
  | Ok a => f a
  | Err => Err
  | Crash => Crash
  | UB => UB
  | NoFuel => NoFuel
  end.

(** The same with a pure continuation (database-parsers.cc:44-60). *)
Definition omap {A B} (f : A -> B) (o : outcome A) : outcome B :=
  obind o (fun a => Ok (f a)).

(** Sequential [for] loop whose body may fail; stops at the first failure. *)
Fixpoint ofold {A S} (body : S -> A -> outcome S) (l : list A) (s : S) : outcome S :=
  match l with
  | [] => Ok s
  | a :: l' => obind (body s a) (fun s' => ofold body l' s')
  end.

(** ** absl::btree_map with integral keys: association list sorted by key.
    Invariant (not part of the type): [bt_sorted].
    Used at arch-xc7-part.h:75,131,193, frames.h:35-46, configuration.h:41,62,87, bitstream.h:38,
    database.h:60. *)
Definition btmap (A : Type) : Type := list (N * A).

(** The keys in iteration order (configuration.h:227-238). *)
Definition bt_keys {A} (m : btmap A) : list N := map fst m.

(** The invariant of a btree_map (arch-xc7-part.h:75, frames.h:46). *)
Definition bt_sorted {A} (m : btmap A) : Prop := StronglySorted N.lt (bt_keys m).

(** [m.find(k)] (also [m.contains], [m.at]): frames.h:56, arch-xc7-part.cc:90,101,132,142,163,173. *)
Fixpoint bt_find {A} (k : N) (m : btmap A) : option A :=
  match m with
  | [] => None
  | (k', v) :: m' => if k =? k' then Some v else bt_find k m'
  end.

(** [m.insert({k,v})] / [m.emplace(k,v)]: does nothing if the key is present
    (arch-xc7-part.cc:37-50, frames.h:58-60, bitstream.h:39-43). *)
Fixpoint bt_insert {A} (k : N) (v : A) (m : btmap A) : btmap A :=
  match m with
  | [] => [(k, v)]
  | (k', v') :: m' =>
      if k <? k' then (k, v) :: m
      else if k =? k' then m
      else (k', v') :: bt_insert k v m'
  end.

(** [m[k] = v]: inserts or overwrites (configuration.h:204, assembler.cc:112-120). *)
Fixpoint bt_set {A} (k : N) (v : A) (m : btmap A) : btmap A :=
  match m with
  | [] => [(k, v)]
  | (k', v') :: m' =>
      if k <? k' then (k, v) :: m
      else if k =? k' then (k, v) :: m'
      else (k', v') :: bt_set k v m'
  end.

(** [auto it = m.find(k); ++it; it != m.end()]: the element following key [k]
    (arch-xc7-part.cc:101-118). *)
Fixpoint bt_after {A} (k : N) (m : btmap A) : option (N * A) :=
  match m with
  | [] => None
  | (k', _) :: m' => if k =? k' then hd_error m' else bt_after k m'
  end.

(** ** absl::flat_hash_map: association list.  The list order is the iteration
    order of the container, which is arbitrary: code that iterates receives the
    list reordered by an oracle.  Invariant: no duplicate keys.
    Used at database-parsers.h:28,41,61,64,70,79,106,118,124, database.h:23-25,64,109,
    database.cc:33,34,206,371, assembler.cc:191. *)
Section HashMap.
  Context {K A : Type} (eqb : K -> K -> bool).
  Fixpoint hm_find (k : K) (m : list (K * A)) : option A :=
    match m with
    | [] => None
    | (k', v) :: m' => if eqb k k' then Some v else hm_find k m'
    end.
  Definition hm_contains (k : K) (m : list (K * A)) : bool :=
    match hm_find k m with Some _ => true | None => false end.
  (** [insert] / [emplace]: first insertion wins. *)
  Definition hm_insert (k : K) (v : A) (m : list (K * A)) : list (K * A) :=
    if hm_contains k m then m else m ++ [(k, v)].
  (** [m[k] = v]. *)
  Fixpoint hm_set (k : K) (v : A) (m : list (K * A)) : list (K * A) :=
    match m with
    | [] => [(k, v)]
    | (k', v') :: m' =>
        if eqb k k' then (k', v) :: m' else (k', v') :: hm_set k v m'
    end.
End HashMap.

(** absl::flat_hash_set<T>::insert (assembler.cc:109,190,191, database.cc:34). *)
Definition hs_insert {K} (eqb : K -> K -> bool) (k : K) (s : list K) : list K :=
  if existsb (eqb k) s then s else s ++ [k].

(** ** Text: std::string / std::string_view as lists of bytes ([ascii]). *)
Definition text : Type := list ascii.
(** A string literal, e.g. assembler.cc:153-158. *)
Definition tx (s : string) : text := list_ascii_of_string s.

(** operator== of std::string, e.g. the key comparison of the maps of database-parsers.h:61-79. *)
Fixpoint text_eqb (a b : text) : bool :=
  match a, b with
  | [], [] => true
  | x :: a', y :: b' => Ascii.eqb x y && text_eqb a' b'
  | _, _ => false
  end.

(** Truncations to fixed-width unsigned types: C++ conversions, e.g. arch-xc7-frame.h:64-81. *)
Definition u8 (x : N) : N := x mod 2 ^ 8.
Definition u16 (x : N) : N := x mod 2 ^ 16.
Definition u32 (x : N) : N := x mod 2 ^ 32.
Definition u64 (x : N) : N := x mod 2 ^ 64.
