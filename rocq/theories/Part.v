(** Model of fpga/xilinx/arch-xc7-part.h and arch-xc7-part.cc. *)
From Verif Require Import Base BitOps Frame.

(** ** The database part (fpga/database-parsers.h:120-137). *)

(** database-parsers.h:14-18 enum class ConfigBusType *)
Inductive bus_type := BusCLBIOCLK | BusBlockRam | BusCFGCLB.
(** operator== of ConfigBusType (database-parsers.h:14-18), the key comparison of the maps keyed by it. *)
Definition bus_eqb (a b : bus_type) : bool :=
  match a, b with
  | BusCLBIOCLK, BusCLBIOCLK | BusBlockRam, BusBlockRam | BusCFGCLB, BusCFGCLB => true
  | _, _ => false
  end.

(** database-parsers.h:123-124: ClockRegionRow = flat_hash_map<ConfigBusType,
    vector<uint32_t>> (frame count per column), in iteration order. *)
Definition clock_region_row := list (bus_type * list N).
(** database-parsers.h:126 GlobalClockRegionHalf = vector<ClockRegionRow> *)
Definition clock_region_half := list clock_region_row.
(** database-parsers.h:128-137 struct Part *)
Record db_part := {
  dp_idcode : N;
  dp_bottom_rows : clock_region_half;
  dp_top_rows : clock_region_half;
  dp_iobanks : list (N * text)
}.

(** ** The xc7 part (arch-xc7-part.h). *)
(** arch-xc7-part.h:29-52 ConfigurationColumn = its frame count;
    :73-102 ConfigurationBus = btree_map<unsigned, ConfigurationColumn> *)
Definition cfg_bus := btmap N.
(** :129-160 Row = btree_map<BlockType, ConfigurationBus> *)
Definition cfg_row := btmap cfg_bus.
(** :191-226 GlobalClockRegion = btree_map<unsigned, Row> *)
Definition region := btmap cfg_row.
(** :250-281 Part *)
Record part := { p_idcode : N; p_top : region; p_bottom : region }.

(** arch-xc7-part.cc:17-25 BlockTypeFrom (kCFGCLB maps to kCLBIOCLK in the code). *)
Definition block_type_from (t : bus_type) : N :=
  match t with
  | BusCLBIOCLK => kCLBIOCLK
  | BusBlockRam => kBlockRam
  | BusCFGCLB => kCLBIOCLK
  end.

(** arch-xc7-part.cc:35-38: [for i: configuration_bus.emplace(i, config_column[i])]. *)
Fixpoint bus_from (i : N) (cols : list N) (m : cfg_bus) : cfg_bus :=
  match cols with
  | [] => m
  | c :: cols' => bus_from (i + 1) cols' (bt_insert i c m)
  end.

(** arch-xc7-part.cc:27-42 RowFrom (never fails). *)
Definition row_from (r : clock_region_row) : cfg_row :=
  fold_left (fun acc (p : bus_type * list N) =>
               let (t, cols) := p in
               match cols with
               | [] => acc
               | _ => bt_insert (block_type_from t) (bus_from 0 cols []) acc
               end) r [].

(** arch-xc7-part.cc:44-55 GlobalClockRegionFrom *)
Fixpoint region_from_aux (i : N) (h : clock_region_half) (m : region) : region :=
  match h with
  | [] => m
  | r :: h' => region_from_aux (i + 1) h' (bt_insert i (row_from r) m)
  end.
(** arch-xc7-part.cc:44-55 GlobalClockRegionFrom *)
Definition region_from (h : clock_region_half) : region := region_from_aux 0 h [].

(** arch-xc7-part.cc:57-69 Part::FromPart (no failing path in the code). *)
Definition part_from (p : db_part) : part :=
  {| p_idcode := dp_idcode p;
     p_top := region_from (dp_top_rows p);
     p_bottom := region_from (dp_bottom_rows p) |}.

(** arch-xc7-part.cc:71-73 *)
Definition col_valid (frame_count a : N) : bool := fa_minor a <? frame_count.

(** arch-xc7-part.cc:75-87 *)
Definition col_next (frame_count a : N) : option N :=
  if negb (col_valid frame_count a) then None
  else if fa_minor a + 1 <? frame_count then Some (u32 (a + 1))
  else None.

(** arch-xc7-part.cc:89-96 *)
Definition bus_valid (b : cfg_bus) (a : N) : bool :=
  match bt_find (fa_column a) b with
  | None => false
  | Some fc => col_valid fc a
  end.

(** arch-xc7-part.cc:98-129 *)
Definition bus_next (b : cfg_bus) (a : N) : option N :=
  match bt_find (fa_column a) b with
  | None => None
  | Some fc =>
      match col_next fc a with
      | Some n => Some n
      | None =>
          match bt_after (fa_column a) b with
          | None => None
          | Some (c', fc') =>
              let n := fa_make (fa_block_type a) (fa_is_bottom a) (fa_row a) c' 0 in
              if col_valid fc' n then Some n else None
          end
      end
  end.

(** arch-xc7-part.cc:131-137 *)
Definition row_valid (r : cfg_row) (a : N) : bool :=
  match bt_find (fa_block_type a) r with
  | None => false
  | Some b => bus_valid b a
  end.

(** arch-xc7-part.cc:139-160 *)
Definition row_next (r : cfg_row) (a : N) : option N :=
  match bt_find (fa_block_type a) r with
  | None => None
  | Some b => bus_next b a
  end.

(** arch-xc7-part.cc:162-168 *)
Definition region_valid (g : region) (a : N) : bool :=
  match bt_find (fa_row a) g with
  | None => false
  | Some r => row_valid r a
  end.

(** arch-xc7-part.cc:170-200 *)
Definition region_next (g : region) (a : N) : option N :=
  match bt_find (fa_row a) g with
  | None => None
  | Some r =>
      match row_next r a with
      | Some n => Some n
      | None =>
          match bt_after (fa_row a) g with
          | None => None
          | Some (r', row') =>
              let n := fa_make (fa_block_type a) (fa_is_bottom a) r' 0 0 in
              if row_valid row' n then Some n else None
          end
      end
  end.

(** arch-xc7-part.cc:202-207 Part::IsValidFrameAddress *)
Definition part_valid (p : part) (a : N) : bool :=
  if fa_is_bottom a then region_valid (p_bottom p) a else region_valid (p_top p) a.

(** arch-xc7-part.cc:228-242: the block-type fallbacks. *)
Definition part_next_block (p : part) (a : N) : option N :=
  let try_cfg :=
    if fa_block_type a <? kCFGCLB then
      let n := fa_make kCFGCLB false 0 0 0 in
      if part_valid p n then Some n else None
    else None in
  if fa_block_type a <? kBlockRam then
    let n := fa_make kBlockRam false 0 0 0 in
    if part_valid p n then Some n else try_cfg
  else try_cfg.

(** arch-xc7-part.cc:209-243 Part::GetNextFrameAddress *)
Definition part_next (p : part) (a : N) : option N :=
  match (if fa_is_bottom a then region_next (p_bottom p) a
         else region_next (p_top p) a) with
  | Some n => Some n
  | None =>
      if negb (fa_is_bottom a) then
        let n := fa_make (fa_block_type a) true 0 0 0 in
        if region_valid (p_bottom p) n then Some n else part_next_block p a
      else part_next_block p a
  end.
