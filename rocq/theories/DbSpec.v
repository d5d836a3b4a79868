(** What the text files of the database say, stated independently of the
    parsers: lines, words, fields, decimal numbers, segment bits, pseudo pips,
    package pins, part tables.  Only the record types are shared with the model. *)
From Verif Require Import Base DbText AsmSpec.

(** ** Lines *)
Definition newline : ascii := "010"%char.
(** The lines of a text; the newline of the last one may be missing. *)
Inductive text_lines : text -> list text -> Prop :=
| lines_none : text_lines [] []
| lines_last : forall l, l <> [] -> ~ In newline l -> text_lines l [l]
| lines_more : forall l r ls, ~ In newline l -> text_lines r ls ->
    text_lines (l ++ newline :: r) (l :: ls).
Definition ends_in_newline (s : text) : Prop := exists s', s = s' ++ [newline].

(** The text can be split into lines without reading past it: it is empty, it ends
    in a newline, or the byte after it can be read. *)
Definition splittable (after : option ascii) (s : text) : Prop :=
  s = [] \/ ends_in_newline s \/ after <> None.

(** ** White space and words *)
Definition space (c : ascii) : Prop :=
  In c ["009"; "010"; "011"; "012"; "013"; " "]%char.
Definition spaces (s : text) : Prop := Forall space s.
Definition solid (s : text) : Prop := Forall (fun c => ~ space c) s.

(** The words of a line: non-empty, without white space, separated by white space. *)
Inductive text_words : text -> list text -> Prop :=
| words_none : forall s, spaces s -> text_words s []
| words_more : forall s w r ws, spaces s -> w <> [] -> solid w ->
    (r = [] \/ exists c r', r = c :: r' /\ space c) -> text_words r ws ->
    text_words (s ++ w ++ r) (w :: ws).

(** A text without the white space around it. *)
Definition trimmed (s t : text) : Prop :=
  exists a b, s = a ++ t ++ b /\ spaces a /\ spaces b /\
    (forall c r, t = c :: r -> ~ space c) /\ (forall r c, t = r ++ [c] -> ~ space c).

(** The pieces between the occurrences of a separator (at least one piece). *)
Inductive pieces (d : ascii) : text -> list text -> Prop :=
| piece_last : forall p, ~ In d p -> pieces d p [p]
| piece_more : forall p r ps, ~ In d p -> pieces d r ps -> pieces d (p ++ d :: r) (p :: ps).

(** ** Decimal numbers *)
Definition dec_code (c : ascii) (d : N) : Prop := d < 10 /\ N_of_ascii c = 48 + d.
Definition decimal (s : text) (v : N) : Prop :=
  s <> [] /\ exists ds, Forall2 dec_code s ds /\ v = fold_left (fun a d => 10 * a + d) ds 0.

(** A number in a field: blanks may surround it and a sign may precede it. *)
Definition unsigned_field (s : text) (v : N) : Prop :=
  exists a sign ds b, s = a ++ sign ++ ds ++ b /\ spaces a /\ spaces b /\
    (sign = [] \/ sign = tx "+") /\ decimal ds v.
Definition signed_field (s : text) (z : Z) : Prop :=
  exists a sign ds b v, s = a ++ sign ++ ds ++ b /\ spaces a /\ spaces b /\ decimal ds v /\
    ((sign = [] \/ sign = tx "+") /\ z = Z.of_N v \/ sign = tx "-" /\ z = (- Z.of_N v)%Z).

(** What is left in the destination when a field is not a 32-bit number: the value of
    the leading digits, or the largest number if they exceed it; 0 without any. *)
Inductive left_over (s : text) : N -> Prop :=
| left_zero : forall t, trimmed s t -> (t = [] \/ t = tx "+" \/ exists r, t = "-"%char :: r) -> left_over s 0
| left_digits : forall t sign ds c r v, trimmed s t -> t = sign ++ ds ++ c :: r ->
    (sign = [] \/ sign = tx "+") -> (sign = [] -> ds = [] -> c <> "+"%char /\ c <> "-"%char) ->
    (ds = [] /\ v = 0 \/ decimal ds v) ->
    (forall d, ~ dec_code c d) -> v < 2 ^ 32 -> left_over s v
| left_max : forall t sign ds r v, trimmed s t -> t = sign ++ ds ++ r ->
    (sign = [] \/ sign = tx "+") -> decimal ds v -> 2 ^ 32 <= v -> left_over s (2 ^ 32 - 1).

(** ** Segment bits *)
(** "C_B": column C, bit B must be set; "!C_B": it must be clear. *)
Inductive seg_bit : text -> segment_bit -> Prop :=
| seg_set : forall c b col bit, unsigned_field c col -> col < 2 ^ 32 -> unsigned_field b bit -> bit < 2 ^ 32 ->
    seg_bit (c ++ "_"%char :: b) {| sb_column := col; sb_bit := bit; sb_set := true |}
| seg_clear : forall c b col bit, unsigned_field c col -> col < 2 ^ 32 -> unsigned_field b bit -> bit < 2 ^ 32 ->
    seg_bit ("!"%char :: c ++ "_"%char :: b) {| sb_column := col; sb_bit := bit; sb_set := false |}.

Definition bracketed (f d : text) : text := f ++ "["%char :: d ++ ["]"%char].
(** A feature name, with the address in the last pair of brackets if it is there. *)
Inductive seg_name : text -> tile_feature -> Prop :=
| name_address : forall f d v, ~ In "["%char d -> unsigned_field d v -> v < 2 ^ 32 ->
    seg_name (bracketed f d) (f, v)
| name_plain : forall n, (forall f d, n <> bracketed f d) -> seg_name n (n, 0)
| name_odd : forall f d v, ~ In "["%char d -> (forall v', unsigned_field d v' -> 2 ^ 32 <= v') ->
    left_over d v -> seg_name (bracketed f d) (bracketed f d, v).

(** The entries of a line (none or one). *)
Inductive seg_line : text -> list (tile_feature * list segment_bit) -> Prop :=
| seg_blank : forall l, spaces l -> seg_line l []
| seg_entry : forall l name bits nf sbs, text_words l (name :: bits) -> bits <> [] ->
    seg_name name nf -> Forall2 seg_bit bits sbs -> seg_line l [(nf, sbs)].

(** ** Pseudo pips *)
Inductive pip_kind : text -> ppip_type -> Prop :=
| kind_always : pip_kind (tx "always") PpAlways
| kind_default : pip_kind (tx "default") PpDefault
| kind_hint : pip_kind (tx "hint") PpHint.
Inductive pip_line : text -> list (text * ppip_type) -> Prop :=
| pip_blank : pip_line [] []
| pip_entry : forall l name kind t, text_words l [name; kind] -> pip_kind kind t -> pip_line l [(name, t)].

(** ** Package pins *)
(** The columns of a row: the non-empty pieces between the commas, trimmed. *)
Definition columns (l : text) (cols : list text) : Prop :=
  exists ps, pieces ","%char l ps /\
    Forall2 trimmed (filter (fun p => match p with [] => false | _ => true end) ps) cols.
Definition pin_header (l : text) : Prop :=
  columns l [tx "pin"; tx "bank"; tx "site"; tx "tile"; tx "pin_function"].
Inductive pin_row : text -> list package_pin -> Prop :=
| row_blank : forall l, Forall (fun c => c = ","%char) l -> pin_row l []
| row_pin : forall l pin bank site tile fn b, columns l [pin; bank; site; tile; fn] ->
    unsigned_field bank b -> b < 2 ^ 32 ->
    pin_row l [{| pp_pin := pin; pp_bank := b; pp_site := site; pp_tile := tile; pp_function := fn |}].

(** ** Mappings (parts.yaml, devices.yaml) *)
(** Matching quotes around a text are dropped. *)
Inductive unquoted : text -> text -> Prop :=
| unquoted_double : forall s, unquoted (["034"%char] ++ s ++ ["034"%char]) s
| unquoted_single : forall s, unquoted (["'"%char] ++ s ++ ["'"%char]) s
| unquoted_none : forall s, (forall q r, (q = "034"%char \/ q = "'"%char) -> s <> [q] ++ r ++ [q]) -> unquoted s s.

(** What a line is: nothing (blank or comment), a key "key:", a property "  name: value". *)
Inductive yaml_item := YNothing | YKey (key : text) | YProp (name value : text).
Inductive yaml_reads : text -> yaml_item -> Prop :=
| reads_blank : forall l, spaces l -> yaml_reads l YNothing
| reads_comment : forall l r, trimmed l ("#"%char :: r) -> yaml_reads l YNothing
| reads_key : forall l t k, (forall c r, l = c :: r -> ~ space c) -> trimmed l (t ++ tx ":") ->
    (forall r, t <> "#"%char :: r) -> unquoted t k -> yaml_reads l (YKey k)
| reads_prop : forall l c r name value name' value' v, l = c :: r -> space c ->
    trimmed l (name ++ ":"%char :: value) -> ~ In ":"%char name -> (forall r, name <> "#"%char :: r) ->
    trimmed name name' -> trimmed value value' -> unquoted value' v -> yaml_reads l (YProp name' v).

(** The entries: each non-empty key with the properties that follow it, the last value of a
    repeated property; what precedes the first key is dropped. *)
Definition prop_pairs (items : list yaml_item) : list (text * text) :=
  concat (map (fun i => match i with YProp n v => [(n, v)] | _ => [] end) items).
Definition no_key (items : list yaml_item) : Prop := forall k, ~ In (YKey k) items.
Inductive yaml_entries : list yaml_item -> list (text * list (text * text)) -> Prop :=
| entries_done : forall pre, no_key pre -> yaml_entries pre []
| entries_key : forall pre k body rest es, no_key pre -> no_key body ->
    rest = [] \/ (exists k' r, rest = YKey k' :: r) -> yaml_entries rest es ->
    yaml_entries (pre ++ YKey k :: body ++ rest) ((k, rev (prop_pairs body)) :: es).
Definition named (es : list (text * list (text * text))) :=
  filter (fun e => match fst e with [] => false | _ => true end) es.

(** The entries of a mapping file. *)
Definition yaml_document (content : text) (es : list (text * list (text * text))) : Prop :=
  exists ls items, pieces newline content ls /\ Forall2 yaml_reads ls items /\ yaml_entries items es.

(** A part entry resolved with the device entries. *)
Definition resolves (devices : list (text * list (text * text))) (ps : list (text * text)) (info : part_info) : Prop :=
  maps_to ps (tx "device") (pi_device info) /\ maps_to ps (tx "package") (pi_package info) /\
  maps_to ps (tx "speedgrade") (pi_speedgrade info) /\
  exists dps, maps_to (named devices) (pi_device info) dps /\ maps_to dps (tx "fabric") (pi_fabric info).
