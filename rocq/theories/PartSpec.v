(** Specification of a device: which configuration frames it has and what their
    addresses are, stated on the part description (database part), independently of
    the code that walks it. *)
From Verif Require Import Base Part.

(** Series-7 block type numbers (UG470: 0 = CLB/IO/CLK, 1 = block RAM content,
    2 = CFG_CLB). *)
Definition bus_block (t : bus_type) : N :=
  match t with BusCLBIOCLK => 0 | BusBlockRam => 1 | BusCFGCLB => 2 end.

(** Frame address: bits 25:23 block type, 22 bottom half, 21:17 row, 16:7 column,
    6:0 minor. *)
Definition address (block : N) (bottom : bool) (row column minor : N) : N :=
  block * 2 ^ 23 + (if bottom then 2 ^ 22 else 0) + row * 2 ^ 17 + column * 2 ^ 7 + minor.

Definition half (dp : db_part) (bottom : bool) : clock_region_half :=
  if bottom then dp_bottom_rows dp else dp_top_rows dp.

(** The description lists frame [m] of column [c] of bus [t] in row [r]. *)
Definition has_frame (dp : db_part) (t : bus_type) (bottom : bool) (r c m : N) : Prop :=
  exists row cols count,
    nth_error (half dp bottom) (N.to_nat r) = Some row /\
    In (t, cols) row /\
    nth_error cols (N.to_nat c) = Some count /\
    m < count.

Definition is_frame_address (dp : db_part) (a : N) : Prop :=
  exists t bottom r c m, has_frame dp t bottom r c m /\ a = address (bus_block t) bottom r c m.

(** Everything fits its address field, a bus type is listed once per row, and the
    CFG_CLB bus (for which the code uses the address range of CLB_IO_CLK) is not
    used.  All Series-7 parts of the database are like this. *)
Definition row_fits (row : clock_region_row) : Prop :=
  NoDup (map fst row) /\
  forall t cols, In (t, cols) row ->
    t <> BusCFGCLB /\ (length cols <= 1024)%nat /\ Forall (fun n => n <= 128) cols.

Definition part_fits (dp : db_part) : Prop :=
  forall bottom, (length (half dp bottom) <= 32)%nat /\ Forall row_fits (half dp bottom).

(** Rows, columns and frames are numbered without holes: below a frame there is a
    frame 0 in every smaller column and row, and a bus used in the bottom half is used
    in the top half. *)
Definition no_holes (dp : db_part) : Prop :=
  forall t bottom r c m, has_frame dp t bottom r c m ->
    (forall c', c' <= c -> has_frame dp t bottom r c' 0) /\
    (forall r', r' <= r -> has_frame dp t bottom r' 0 0) /\
    has_frame dp t false 0 0 0.
