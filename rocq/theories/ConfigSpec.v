(** Specification of the configuration program and of the frame payload, independent of
    the code that builds them. *)
From Verif Require Import Base Packet.

(** The device row of a frame address: block type, half and row, i.e. the address
    without its column and minor fields. *)
Definition device_row (a : N) : N := a / 2 ^ 17.

Definition two_zero_frames : list N := repeat 0 202.

(** Payload: the frames in order, two zero frames between frames of different device
    rows and two at the end. *)
Fixpoint payload (fs : list (N * list N)) : list N :=
  match fs with
  | [] => two_zero_frames
  | (a, words) :: rest =>
      words
      ++ match rest with
         | (a', _) :: _ => if device_row a =? device_row a' then [] else two_zero_frames
         | [] => []
         end
      ++ payload rest
  end.

(** Number of places where consecutive frames belong to different device rows. *)
Fixpoint row_changes (fs : list (N * list N)) : N :=
  match fs with
  | [] => 0
  | (a, _) :: rest =>
      match rest with
      | (a', _) :: _ => if device_row a =? device_row a' then 0 else 1
      | [] => 0
      end + row_changes rest
  end.

(** The register writes of a packet sequence, in order: register number and data words;
    NOPs are dropped. *)
Definition register_writes (ks : list packet) : list (N * list N) :=
  map (fun k => (pk_addr k, pk_data k)) (filter (fun k => pk_op k =? 2) ks).

(** The Series-7 program (UG470 register numbers): CMD 4, FAR 1, FDRI 2, CTL0 5, MASK 6,
    COR0 9, IDCODE 12, COR1 14, WBSTAR 16, TIMER 17, 19 undocumented, CTL1 24.  Commands:
    WCFG 1, LFRM 3, START 5, RCRC 7, SWITCH 9, GRESTORE 10, DESYNC 13. *)
Definition series7_program (idcode : N) (frame_data : list N) : list (N * list N) :=
  [ (17, [0]); (16, [0]); (4, [0]); (4, [7]); (19, [0]);
    (9, [0x02003fe5]); (14, [0]); (12, [idcode]); (4, [9]);
    (6, [0x401]); (5, [0x501]); (6, [0]); (24, [0]);
    (1, [0]); (4, [1]); (2, []); (2, frame_data);
    (4, [7]); (4, [10]); (4, [3]); (4, [5]);
    (1, [0x3be0000]); (6, [0x501]); (5, [0x501]); (4, [7]); (4, [13]) ].

(** The same program, word by word: each write is a type 1 header (0x30000001 + 2^13 * register) and its
    value, 0x20000000 is a NOP; the frame data follow a type 2 header. *)
Definition nops (n : nat) : list N := repeat 0x20000000 n.
Definition series7_words (idcode : N) (frame_data : list N) : list N :=
  nops 1 ++ [0x30022001; 0; 0x30020001; 0; 0x30008001; 0] ++ nops 1 ++ [0x30008001; 7] ++ nops 2
  ++ [0x30026001; 0; 0x30012001; 0x02003fe5; 0x3001C001; 0; 0x30018001; idcode; 0x30008001; 9] ++ nops 1
  ++ [0x3000C001; 0x401; 0x3000A001; 0x501; 0x3000C001; 0; 0x30030001; 0] ++ nops 8
  ++ [0x30002001; 0; 0x30008001; 1] ++ nops 1
  ++ [0x30004000; 0x50000000 + N.of_nat (List.length frame_data)] ++ frame_data
  ++ [0x30008001; 7] ++ nops 2 ++ [0x30008001; 10] ++ nops 1 ++ [0x30008001; 3] ++ nops 100
  ++ [0x30008001; 5] ++ nops 1 ++ [0x30002001; 0x3be0000; 0x3000C001; 0x501; 0x3000A001; 0x501; 0x30008001; 7]
  ++ nops 2 ++ [0x30008001; 13] ++ nops 400.
