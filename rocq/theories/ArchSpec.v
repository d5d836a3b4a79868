(** The three architectures of the library, as Xilinx documents them (UG470, UG570). *)
From Verif Require Import Base Part PartSpec ConfigSpec ContainerSpec EncodeSpec.

Inductive arch := Series7 | UltraScale | UltraScalePlus.

(** Words of a configuration frame. *)
Definition frame_words (a : arch) : nat := match a with Series7 => 101 | UltraScale => 123 | UltraScalePlus => 93 end.

(** What is sent before the packets: dummy words, the bus width detection pattern, two more dummy words, the sync word. *)
Definition dummy_words (a : arch) : nat := match a with Series7 => 8 | UltraScale => 1 | UltraScalePlus => 16 end.
Definition preamble_of (a : arch) : list N :=
  repeat 0xFFFFFFFF (dummy_words a) ++ [0x000000BB; 0x11220044; 0xFFFFFFFF; 0xFFFFFFFF; 0xAA995566].

(** The payload for frames of [w] words: two zero frames between device rows and at the end. *)
Fixpoint payload_of (w : nat) (fs : list (N * list N)) : list N :=
  match fs with
  | [] => repeat 0 (w * 2)
  | (a, words) :: rest =>
      words ++ match rest with
               | (a', _) :: _ => if device_row a =? device_row a' then [] else repeat 0 (w * 2)
               | [] => []
               end ++ payload_of w rest
  end.

(** Frames of a design for the architecture, and what the device holds after it. *)
Definition arch_frame (ar : arch) (f : list N) : Prop := length f = frame_words ar /\ Forall (fun w => w < 2 ^ 32) f.
Definition arch_design (ar : arch) (dp : db_part) (fd : list (N * list N)) : Prop :=
  NoDup (map fst fd) /\ Forall (fun kv => is_frame_address dp (fst kv) /\ arch_frame ar (snd kv)) fd.
Definition arch_completed (ar : arch) (dp : db_part) (fd : list (N * list N)) (a : N) : option (list N) :=
  match content fd a with
  | Some f => Some f
  | None => if existsb (N.eqb a) (device_frames dp) then Some (repeat 0 (frame_words ar)) else None
  end.
