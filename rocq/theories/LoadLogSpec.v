(** What the message of a failed load claims about the database directory, stated on the files (DbSpec, JsonSpec,
    LoadSpec): each message with the fault that it names.  Only the data types are shared with the model, and the
    library texts of [library_texts]. *)
From Verif Require Import Base Part DbText DbJson Database AsmSpec DbSpec JsonSpec LoadSpec LoadLog.

(** The decimal digits of a number, without leading zeros. *)
Definition decimal_text (n : N) (s : text) : Prop := decimal s n /\ (n = 0 -> s = tx "0") /\ (forall r, n <> 0 -> s <> "0"%char :: r).

Section Claims.
  Context (lt : library_texts).

  (** ** JSON values *)
  Inductive kind_name : json -> text -> Prop :=
  | kind_null : kind_name JNull (tx "null")
  | kind_bool : forall b, kind_name (JBool b) (tx "boolean")
  | kind_int : forall z, kind_name (JInt z) (tx "number")
  | kind_double : kind_name JDouble (tx "number")
  | kind_string : forall s, kind_name (JStr s) (tx "string")
  | kind_array : forall l, kind_name (JArr l) (tx "array")
  | kind_object : forall l, kind_name (JObj l) (tx "object").

  Definition fault := json -> text -> Prop.
  (** The value is not what [R] describes; the message shows it and names its kind. *)
  Definition not_a {A} (R : json -> A -> Prop) : fault := fun j m =>
    (forall x, ~ R j x) /\ exists k, kind_name j k /\
      m = tx "could not unmarshal " ++ lt_value lt j ++ tx ", unexpected type: " ++ k.
  Definition no_object : fault := fun j m => ~ is_object j /\ m = tx "json value not an object".
  (** The member [name] of an object is missing, or has the fault [F]. *)
  Inductive bad_member (name : text) (F : fault) (j : json) : text -> Prop :=
  | member_of_nothing : forall m, no_object j m -> bad_member name F j m
  | member_missing : no_member j name ->
      bad_member name F j (tx "json attribute """ ++ name ++ tx """ not found in " ++ lt_value lt j)
  | member_bad : forall v m, member j name v -> F v m -> bad_member name F j m.
  Inductive bad_opt_member (name : text) (F : fault) (j : json) : text -> Prop :=
  | opt_member_of_nothing : forall m, no_object j m -> bad_opt_member name F j m
  | opt_member_bad : forall v m, member j name v -> F v m -> bad_opt_member name F j m.
  (** An entry of an object: its key has the fault [K] (which may show the object), or its value the fault [F]. *)
  Definition bad_entry (K : json -> text -> text -> Prop) (F : fault) : fault := fun j m =>
    exists l k v, j = JObj l /\ In (k, v) l /\ (K j k m \/ F v m).
  Definition any_key : json -> text -> text -> Prop := fun _ _ _ => False.
  Definition unknown_bus (what : text) : json -> text -> text -> Prop := fun _ k m =>
    exists k', c_string k k' /\ (forall t, ~ bus_name k' t) /\ m = what ++ tx """" ++ k' ++ tx """".
  Definition no_number (R : text -> Prop) : json -> text -> text -> Prop := fun j k m =>
    exists k', c_string k k' /\ ~ R k /\ m = tx "cannot parse """ ++ k' ++ tx """ for " ++ lt_value lt j.
  Definition either (F G : fault) : fault := fun j m => F j m \/ G j m.

  (** ** tilegrid.json *)
  Definition bad_string_map : fault := either no_object (bad_entry any_key (not_a json_string)).
  Definition bad_string_list : fault := fun j m =>
    (~ (exists l, j = JArr l) /\ m = tx "json value not an array") \/
    (exists l v, j = JArr l /\ In v l /\ not_a json_string v m).
  Definition bad_address : fault := either (not_a json_string) (fun j m =>
    exists s, j = JStr s /\ (forall v, ~ address_text s v) /\ m = tx "could not parse " ++ s ++ tx " to bits address").
  Definition bad_alias : fault := fun j m =>
    bad_member (tx "sites") bad_string_map j m \/ bad_member (tx "start_offset") (not_a json_u32) j m \/
    bad_member (tx "type") (not_a json_string) j m.
  Definition bad_block : fault := fun j m =>
    bad_opt_member (tx "alias") bad_alias j m \/ bad_member (tx "baseaddr") bad_address j m \/
    bad_member (tx "frames") (not_a json_u32) j m \/ bad_member (tx "offset") (not_a json_i32) j m \/
    bad_member (tx "words") (not_a json_u32) j m.
  Definition bad_bits : fault := bad_entry (unknown_bus (tx "unknown frame block type ")) bad_block.
  Definition bad_tile : fault := fun j m =>
    bad_member (tx "type") (not_a json_string) j m \/ bad_member (tx "grid_x") (not_a json_u32) j m \/
    bad_member (tx "grid_y") (not_a json_u32) j m \/ bad_opt_member (tx "clock_region") (not_a json_string) j m \/
    bad_member (tx "bits") bad_bits j m \/ bad_member (tx "pin_functions") bad_string_map j m \/
    bad_member (tx "sites") bad_string_map j m \/ bad_member (tx "prohibited_sites") bad_string_list j m.
  Definition bad_grid : fault := fun j m => no_object j m \/
    exists l k v name m', j = JObj l /\ In (k, v) l /\ c_string k name /\ bad_tile v m' /\
      m = tx "could not unmarshal tile " ++ name ++ tx ": " ++ m'.

  (** ** part.json *)
  Definition bad_columns : fault := either no_object
    (bad_entry (no_number (fun k => exists z, int_key k z)) (bad_member (tx "frame_count") (not_a json_u32))).
  Definition bad_row : fault := either no_object
    (bad_entry (unknown_bus (tx "unknown config bus type ")) (bad_member (tx "configuration_columns") bad_columns)).
  Definition bad_half : fault := either no_object
    (bad_entry (no_number (fun k => exists z, int_key k z)) (bad_member (tx "configuration_buses") bad_row)).
  Definition rows_of (side : text) (j rows : json) : Prop := exists h, member j side h /\ member h (tx "rows") rows.
  Definition bad_side (side : text) : fault := fun j m =>
    ((forall rows, ~ rows_of side j rows) /\ m = tx "could not find global_clock_region " ++ side ++ tx " rows") \/
    (exists rows, rows_of side j rows /\ bad_half rows m).
  Definition bad_regions : fault := either (bad_side (tx "bottom")) (bad_side (tx "top")).
  Definition bad_banks : fault := bad_entry (no_number (fun k => exists b, bank_key k b)) (fun _ _ => False).
  Definition bad_part : fault := fun j m =>
    bad_member (tx "idcode") (not_a json_u32) j m \/ bad_opt_member (tx "iobanks") bad_banks j m \/
    bad_member (tx "global_clock_regions") bad_regions j m.

  (** ** package_pins.csv: the number of the line, and the line. *)
  Inductive bad_pin_line : N -> text -> text -> Prop :=
  | header_missing : forall l, ~ pin_header l -> bad_pin_line 1 l (tx "missing header")
  | columns_wrong : forall n l cols, n <> 1 -> columns l cols -> List.length cols <> 0%nat -> List.length cols <> 5%nat ->
      bad_pin_line n l (tx "invalid line """ ++ l ++ tx """")
  | bank_wrong : forall n l pin bank site tile fn, n <> 1 -> columns l [pin; bank; site; tile; fn] ->
      (forall b, unsigned_field bank b -> 2 ^ 32 <= b) ->
      bad_pin_line n l (tx "could not parse bank (second column) """ ++ l ++ tx """").
  Definition bad_pins (content m : text) : Prop :=
    exists before l after n m', text_lines content (before ++ l :: after) /\
      decimal_text (N.of_nat (List.length before) + 1) n /\
      bad_pin_line (N.of_nat (List.length before) + 1) l m' /\ m = n ++ tx ": " ++ m'.

  (** ** parts.yaml, devices.yaml *)
  (** A line that is neither blank nor a comment, and whether it is indented. *)
  Definition written (l t : text) : Prop := trimmed l t /\ t <> [] /\ forall r, t <> "#"%char :: r.
  Definition indented (l : text) : Prop := exists c r, l = c :: r /\ space c.
  Inductive bad_yaml_line (l : text) : text -> Prop :=
  | key_without_colon : forall t, written l t -> ~ indented l -> (forall r, t <> r ++ tx ":") ->
      bad_yaml_line l (tx "Top-level key missing trailing colon")
  | property_without_colon : forall t, written l t -> indented l -> ~ In ":"%char t ->
      bad_yaml_line l (tx "Nested key-value pair missing colon").
  (** A line is malformed, or an entry that ends before a line that starts another one, or at the end, has the fault [F]. *)
  Definition bad_yaml (F : list (text * text) -> text -> Prop) (content m : text) : Prop :=
    (exists ls l, pieces newline content ls /\ In l ls /\ bad_yaml_line l m) \/
    (exists ls1 ls2 items es k ps, pieces newline content (ls1 ++ ls2) /\ Forall2 yaml_reads ls1 items /\
       yaml_entries items (es ++ [(k, ps)]) /\ k <> [] /\
       (ls2 = [] \/ exists l t ls3, ls2 = l :: ls3 /\ written l t /\ ~ indented l) /\ F ps m).
  Definition without_fabric (ps : list (text * text)) (m : text) : Prop :=
    ~ has_key ps (tx "fabric") /\ m = tx "parts yaml doesn't contain fabric".
  Inductive unresolved (devices : list (text * list (text * text))) (ps : list (text * text)) : text -> Prop :=
  | key_missing : forall key, In key [tx "device"; tx "package"; tx "speedgrade"] -> ~ has_key ps key ->
      unresolved devices ps (tx "key """ ++ key ++ tx """ not found")
  | device_unknown : forall d, maps_to ps (tx "device") d -> ~ has_key (named devices) d ->
      unresolved devices ps (tx "could not find fabric for device: """ ++ d ++ tx """").

  (** ** The directory *)
  Section Directory.
    Context (e : environment) (root part : text).
    (** A file of the database: of the mapping directory, of the fabric of the part, of the part. *)
    Inductive database_file : text -> text -> Prop :=
    | mapping_file : forall dir name p, inside root (tx "mapping") dir -> In name [tx "parts.yaml"; tx "devices.yaml"] ->
        inside dir name p -> database_file name p
    | fabric_file : forall info dir p, part_listed e root part info -> inside root (pi_fabric info) dir ->
        inside dir (tx "tilegrid.json") p -> database_file (tx "tilegrid.json") p
    | part_file : forall dir name p, inside root part dir -> In name [tx "part.json"; tx "package_pins.csv"] ->
        inside dir name p -> database_file name p.
    Definition database_text (name content : text) : Prop := exists p, database_file name p /\ file e p content.

    Inductive explains : text -> Prop :=
    | cannot_open : forall name p, database_file name p -> (forall c, ~ file e p c) ->
        explains (tx "could not open file: " ++ p ++ tx ": " ++ lt_errno lt p)
    | devices_table : forall devices m, database_text (tx "devices.yaml") devices -> bad_yaml without_fabric devices m -> explains m
    | parts_table : forall parts devices esd m, database_text (tx "parts.yaml") parts -> database_text (tx "devices.yaml") devices ->
        yaml_document devices esd -> bad_yaml (unresolved esd) parts m -> explains m
    | part_unknown : forall parts esp, database_text (tx "parts.yaml") parts -> yaml_document parts esp -> ~ has_key (named esp) part ->
        explains (tx "invalid or unknown part """ ++ part ++ tx """")
    | no_json : forall name c, In name [tx "tilegrid.json"; tx "part.json"] -> database_text name c -> e_json e c = None ->
        explains (tx "json parsing error, " ++ lt_parse lt c)
    | grid_wrong : forall c j m, database_text (tx "tilegrid.json") c -> e_json e c = Some j -> bad_grid j m -> explains m
    | cannot_walk : e_walk e root = None -> explains (tx "could not initialize directory iterator")
    | part_wrong : forall c j m, database_text (tx "part.json") c -> e_json e c = Some j -> bad_part j m -> explains m
    | pins_wrong : forall c m, database_text (tx "package_pins.csv") c -> bad_pins c m -> explains m.
  End Directory.
End Claims.
