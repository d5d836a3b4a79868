(** Model of the constructors of fpga/xilinx/arch-xc7-part.h that build a part from a range of frame
    addresses.  The standard algorithms leave open how equal elements are ordered, so their results are
    oracles ([sorted_by], [split_by]); the range is sorted in place, which only concerns the elements of
    the range handed down. *)
From Verif Require Import Base BitOps Frame Part.

(** assert(std::all_of(first, last, ... == first->...)): arch-xc7-part.h:56-61,106-110,164-167,230-231 *)
Definition agree_with_first (same : N -> N -> bool) (l : list N) : bool :=
  match l with [] => true | a :: _ => forallb (fun x => same x a) l end.

(** arch-xc7-part.h:54-68 ConfigurationColumn(first, last): the assertion, std::max_element by minor
    (the first greatest), its minor plus one.  An empty range dereferences the end. *)
Definition max_minor (a : N) (l : list N) : N :=
  fold_left (fun best x => if fa_minor best <? fa_minor x then x else best) l a.
(** arch-xc7-part.h:56-61 *)
Definition same_column (x y : N) : bool :=
  (fa_block_type x =? fa_block_type y) && Bool.eqb (fa_is_bottom x) (fa_is_bottom y)
  && (fa_row x =? fa_row y) && (fa_column x =? fa_column y).
(** arch-xc7-part.h:54-68 ConfigurationColumn(first, last) *)
Definition column_of (l : list N) : outcome N :=
  if agree_with_first same_column l then
    match l with
    | [] => UB
    | a :: r => Ok (u32 (fa_minor (max_minor a r) + 1))
    end
  else Crash.

Section Algorithms.
  (** std::sort with the order given by a key (arch-xc7-part.h:112,169,234); std::partition
      (arch-xc7-part.h:286). *)
  Context (sorted_by : (N -> N) -> list N -> list N).
  Context (split_by : (N -> bool) -> list N -> list N * list N).

  (** std::upper_bound(it, last, v) (arch-xc7-part.h:118,175,240) by a key on a sorted range: the position of the first element with
      a greater key; the range before it and the one from it on. *)
  Fixpoint upper_bound (key : N -> N) (v : N) (l : list N) : list N * list N :=
    match l with
    | [] => ([], [])
    | x :: r => if v <? key x then ([], l)
                else let '(a, b) := upper_bound key v r in (x :: a, b)
    end.

  (** The loops of arch-xc7-part.h:116-126, :173-184 and :238-247: the sub-ranges of equal keys; each is handed to the
      constructor of the next level and the result emplaced under the key.  [fuel] bounds the number of
      sub-ranges by the number of elements. *)
  Fixpoint emplace_groups {A} (fuel : nat) (key : N -> N) (make : list N -> outcome A) (l : list N)
      (m : btmap A) : outcome (btmap A) :=
    match l with
    | [] => Ok m
    | x :: _ =>
        match fuel with
        | O => NoFuel
        | S fuel =>
            let '(group, rest) := upper_bound key (key x) l in
            obind (make group) (fun y => emplace_groups fuel key make rest (bt_insert (key x) y m))
        end
    end.
  (** arch-xc7-part.h:106-126 and its likes: assertion, sort, loop. *)
  Definition build {A} (same : N -> N -> bool) (key : N -> N) (make : list N -> outcome A) (l : list N)
    : outcome (btmap A) :=
    if agree_with_first same l then
      let s := sorted_by key l in emplace_groups (List.length s) key make s []
    else Crash.

  (** arch-xc7-part.h:104-127 ConfigurationBus(first, last) *)
  Definition same_bus (x y : N) : bool :=
    (fa_block_type x =? fa_block_type y) && Bool.eqb (fa_is_bottom x) (fa_is_bottom y) && (fa_row x =? fa_row y).
  (** arch-xc7-part.h:104-127 *)
  Definition bus_of : list N -> outcome cfg_bus := build same_bus fa_column column_of.
  (** arch-xc7-part.h:162-185 Row(first, last) *)
  Definition same_row (x y : N) : bool := Bool.eqb (fa_is_bottom x) (fa_is_bottom y) && (fa_row x =? fa_row y).
  (** arch-xc7-part.h:162-185 *)
  Definition row_of : list N -> outcome cfg_row := build same_row fa_block_type bus_of.
  (** arch-xc7-part.h:228-248 GlobalClockRegion(first, last) *)
  Definition same_half (x y : N) : bool := Bool.eqb (fa_is_bottom x) (fa_is_bottom y).
  Definition region_of_list : list N -> outcome region := build same_half fa_row row_of.
  (** arch-xc7-part.h:284-291 (and 260-262) Part(idcode, first, last): std::partition puts the addresses of the bottom half first. *)
  Definition part_of (idcode : N) (l : list N) : outcome part :=
    let '(bottom, top) := split_by fa_is_bottom l in
    obind (region_of_list top) (fun t =>
    obind (region_of_list bottom) (fun b =>
    Ok {| p_idcode := idcode; p_top := t; p_bottom := b |})).
End Algorithms.
