(** Specification of the decoder of configuration packets in terms of the history of register writes,
    independent of the decoder's variables.  Registers: FAR 1, FDRI 2, CMD 4, MASK 6, IDCODE 12,
    CTL1 24; the command WCFG is 1. *)
From Verif Require Import Base.

(** A history: the register writes so far (register, data words), oldest first.  A write without data
    leaves the register alone. *)
Definition history := list (N * list N).

(** [last_write h r before d]: the last write with data to register [r] wrote [d]; [before] is the
    history up to it. *)
Definition last_write (h : history) (r : N) (before : history) (d : N) : Prop :=
  exists ds after, h = before ++ (r, d :: ds) :: after /\ forall d' ds', ~ In (r, d' :: ds') after.
Definition never_written (h : history) (r : N) : Prop := forall d ds, ~ In (r, d :: ds) h.

(** The value of a register: what was written last, 0 at power up. *)
Definition value (h : history) (r v : N) : Prop :=
  (exists before, last_write h r before v) \/ (never_written h r /\ v = 0).

(** Bit 21 of CTL1 is set: the last write to CTL1 had the bit, and the bit was enabled in MASK at that
    time. *)
Definition progress_markers_only (h : history) : Prop :=
  exists before d m, last_write h 24 before d /\ value before 6 m /\
    N.testbit d 21 = true /\ N.testbit m 21 = true.

(** The write [w] after history [h] makes the next FDRI write start at FAR: a WCFG command, or a new FAR
    while the command register holds WCFG (unless bit 21 of CTL1 is set). *)
Inductive starts_write (h : history) : N * list N -> Prop :=
| start_wcfg ds : starts_write h (4, 1 :: ds)
| start_far d ds : value h 4 1 -> ~ progress_markers_only h -> starts_write h (1, d :: ds).

(** The next FDRI write starts at FAR: such a write happened since the last FDRI write. *)
Definition armed (h : history) : Prop :=
  exists before w after, h = before ++ w :: after /\ starts_write before w /\ forall ds, ~ In (2, ds) after.

(** Two frame addresses belong to the same device row: block type, half and row agree. *)
Definition same_row (a b : N) : Prop := (a / 2 ^ 17) mod 2 ^ 9 = (b / 2 ^ 17) mod 2 ^ 9.

(** Where the words of one FDRI write go.  [lays next a data l c]: starting at address [a] the data is
    cut into frames of 101 words [l]; two frames' worth of padding is dropped where the device's next
    address (given by [next]) is in another row; what follows the last frame of the device is dropped;
    [c] is the address reached. *)
Inductive lays (next : N -> option N) : N -> list N -> list (N * list N) -> N -> Prop :=
| lays_end a : lays next a [] [] a
| lays_last a data : data <> [] -> next a = None -> lays next a data [(a, firstn 101 data)] a
| lays_row a b data l c : data <> [] -> next a = Some b -> same_row a b ->
    lays next b (skipn 101 data) l c -> lays next a data ((a, firstn 101 data) :: l) c
| lays_new_row a b data l c : data <> [] -> next a = Some b -> ~ same_row a b ->
    lays next b (skipn 303 data) l c -> lays next a data ((a, firstn 101 data) :: l) c.

(** [decodes idcode next h c l]: the history [h] contains no foreign IDCODE, wrote the frames [l], oldest
    first, and left the frame pointer at [c]. *)
Inductive decodes (idcode : N) (next : N -> option N) : history -> N -> list (N * list N) -> Prop :=
| dec_nothing : decodes idcode next [] 0 []
| dec_register h r ds c l : r <> 2 -> (forall d ds', r = 12 -> ds = d :: ds' -> d = idcode) ->
    decodes idcode next h c l -> decodes idcode next (h ++ [(r, ds)]) c l
| dec_from_far h ds c l far l' c' : decodes idcode next h c l ->
    armed h -> value h 1 far -> lays next far ds l' c' ->
    decodes idcode next (h ++ [(2, ds)]) c' (l ++ l')
| dec_continue h ds c l l' c' : decodes idcode next h c l ->
    ~ armed h -> lays next c ds l' c' ->
    decodes idcode next (h ++ [(2, ds)]) c' (l ++ l').

(** The last frame written at address [a]. *)
Definition written_last (l : list (N * list N)) (a : N) (f : list N) : Prop :=
  exists l1 l2, l = l1 ++ (a, f) :: l2 /\ ~ In a (map fst l2).
