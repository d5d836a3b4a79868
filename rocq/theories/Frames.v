(** Model of fpga/xilinx/frames.h.
    [AddFrame] (frames.h:29-32) is not modelled: it is never called and could not be
    instantiated (it passes the map to UpdateECC). *)
From Verif Require Import Base BitOps Frame Part.

(** frames.h:47 btree_map<FrameAddress, FrameWords>; FrameAddress is ordered by
    its 32-bit value (arch-xc7-frame.h:73, defaulted <=>). *)
Definition frame_map := btmap frame.

(** frames.h:52-63 AddMissingFrames: do-while loop from address [a].
    The part is always engaged where the code calls it (bitstream.h:49-50). *)
Fixpoint add_missing_from (fuel : nat) (p : part) (a : N) (fs : frame_map)
  : outcome frame_map :=
  match fuel with
  | O => NoFuel
  | S fuel' =>
      let fs' := match bt_find a fs with
                 | None => bt_insert a zero_frame fs
                 | Some _ => fs
                 end in
      match part_next p a with
      | None => Ok fs'
      | Some a' => add_missing_from fuel' p a' fs'
      end
  end.

(** frames.h:51-62 AddMissingFrames, from address 0. *)
Definition add_missing_frames (fuel : nat) (p : part) (fs : frame_map)
  : outcome frame_map := add_missing_from fuel p 0 fs.
