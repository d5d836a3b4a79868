(** Specification of the printed text. *)
From Verif Require Import Base.

(** The digits of base 16. *)
Definition digit16 (d : N) : ascii := nth (N.to_nat d) (tx "0123456789ABCDEF") "?"%char.
Definition two_digits (b : N) : text := [digit16 (b / 16); digit16 (b mod 16)].
Definition eight_digits (w : N) : text :=
  two_digits (w / 2 ^ 24) ++ two_digits (w / 2 ^ 16 mod 256) ++ two_digits (w / 2 ^ 8 mod 256) ++ two_digits (w mod 256).

(** [occurs p l i]: the sequence [p] stands at position [i] of [l]. *)
Definition occurs {A} (p l : list A) (i : nat) : Prop := exists a b, l = a ++ p ++ b /\ List.length a = i.
(** The part of [l] in front of the first occurrence of [p], or all of it. *)
Definition up_to_first {A} (p l h : list A) : Prop :=
  (exists r, l = h ++ p ++ r /\ forall i, occurs p l i -> (List.length h <= i)%nat) \/
  (h = l /\ forall i, ~ occurs p l i).
(** The part of [l] from the last occurrence of [p] on, or nothing. *)
Definition from_last {A} (p l s : list A) : Prop :=
  (exists h r, l = h ++ s /\ s = p ++ r /\ forall i, occurs p l i -> (i <= List.length h)%nat) \/
  (s = [] /\ forall i, ~ occurs p l i).

(** The words of the configuration program in front of its WCFG command. *)
Definition prelude (idcode : N) : list N :=
  [0x20000000; 0x30022001; 0; 0x30020001; 0; 0x30008001; 0; 0x20000000; 0x30008001; 7; 0x20000000; 0x20000000;
   0x30026001; 0; 0x30012001; 0x02003fe5; 0x3001C001; 0; 0x30018001; idcode; 0x30008001; 9; 0x20000000;
   0x3000C001; 0x401; 0x3000A001; 0x501; 0x3000C001; 0; 0x30030001; 0] ++ repeat 0x20000000 8 ++ [0x30002001; 0].

Definition blank_separated (l : list text) : text :=
  match l with [] => [] | t :: r => t ++ flat_map (fun u => tx " " ++ u) r end.

(** The registers of the 7 series (UG470, table 5-23) and the text printed for each; register 19 is not documented and, like all others,
    printed as unknown. *)
Definition documented_registers : list (N * text) :=
  [(0, tx "CRC"); (1, tx "Frame Address"); (2, tx "Frame Data Input"); (3, tx "Frame Data Output"); (4, tx "Command"); (5, tx "Control 0");
   (6, tx "Mask for CTL0 and CTL1"); (7, tx "Status"); (8, tx "Legacy Output"); (9, tx "Configuration Option 0"); (10, tx "Multiple Frame Write");
   (11, tx "Initial CBC Value"); (12, tx "Device ID"); (13, tx "User Access"); (14, tx "Configuration Option 1"); (16, tx "Warm Boot Start Address");
   (17, tx "Watchdog Timer"); (22, tx "Boot History Status"); (24, tx "Control 1"); (31, tx "BPI/SPI Configuration Options")].
