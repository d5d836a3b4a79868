(** The repository's unit tests of the FASM parser and the database readers, replayed on the model. *)
From Verif Require Import Base Absl Part Fasm DbText DbJson Database FasmSpec.

(** ** fasm-parser_test.cc *)
(** One case: text, result, and the one call of the callback that is expected (none if the width is 0). *)
Definition value_case : Type := (text * N * text * N * N * N)%type.
Definition value_check (line_end : text) (t : value_case) : bool :=
  let '(input, result, name, start, width, bits) := t in
  match fasm_parse Iso (fun _ => true) false (input ++ line_end) with
  | Ok st =>
      (p_result st =? result) && (Bool.eqb (match p_events st with [] => false | _ => true end) (negb (width =? 0))) &&
      forallb (fun e => match e with
                        | EFeature _ n s w b => text_eqb n name && (s =? start) && (w =? width) && (b =? bits)
                        | EAnnotation _ _ _ _ => false
                        end) (p_events st)
  | _ => false
  end.
(** fasm-parser_test.cc:57-157 ValueParseTest *)
Definition value_cases : list value_case :=
  [
   (tx "DOTS.IN.FEATURE", kSuccess, tx "DOTS.IN.FEATURE", 0, 1, 1);
   (tx "D_1_G1TS", kSuccess, tx "D_1_G1TS", 0, 1, 1);
   (tx "   " ++ [ascii_of_N 9] ++ tx "INDENTED # foo", kSuccess, tx "INDENTED", 0, 1, 1);
   (tx "0valid", kSuccess, tx "0valid", 0, 1, 1);
   (tx "[8:0]", kError, tx "", 0, 0, 0);
   (tx "", kSuccess, tx "", 0, 0, 0);
   (tx " # hello ", kSuccess, tx "", 0, 0, 0);
   (tx "COMMENT # more stuff", kSuccess, tx "COMMENT", 0, 1, 1);
   (tx "COMMENT[3:0] = 12 # ok", kSuccess, tx "COMMENT", 0, 4, 12);
   (tx "IMPLICIT_ONE", kSuccess, tx "IMPLICIT_ONE", 0, 1, 1);
   (tx "EXPLICIT_ZERO = 0", kSuccess, tx "EXPLICIT_ZERO", 0, 1, 0);
   (tx "IMPLICIT_ZERO[8:0] =  # no value assigned", kSuccess, tx "IMPLICIT_ZERO", 0, 9, 0);
   (tx "UNDERSCORE_BITPOS[ _8_ ]", kSuccess, tx "UNDERSCORE_BITPOS", 8, 1, 1);
   (tx "UNDERSCORE_DECIMAL[15:0] = 1_234", kSuccess, tx "UNDERSCORE_DECIMAL", 0, 16, 1234);
   (tx "UNDERSCORE_HEXVALUE[15:0] = 'hAB_CD", kSuccess, tx "UNDERSCORE_HEXVALUE", 0, 16, 0xabcd);
   (tx "ASSIGN_DECIMAL[3:0] = 5", kSuccess, tx "ASSIGN_DECIMAL", 0, 4, 5);
   (tx "ASSIGN_DECIMAL[3:0] = 4'd5", kSuccess, tx "ASSIGN_DECIMAL", 0, 4, 5);
   (tx "ASSIGN_BROKEN_DEC[7:0] = 4'd5a", kError, tx "ASSIGN_BROKEN_DEC", 0, 8, 5);
   (tx "ASSIGN_HEX1[15:0] = 16'hCa_Fe", kSuccess, tx "ASSIGN_HEX1", 0, 16, 0xcafe);
   (tx "ASSIGN_HEX2[31:0] = 32'h_dead_beef", kSuccess, tx "ASSIGN_HEX2", 0, 32, 0xdeadbeef);
   (tx "ASSIGN_HEX3[31:0] = 32 ' h _dead_beef ", kSuccess, tx "ASSIGN_HEX3", 0, 32, 0xdeadbeef);
   (tx "BINARY[63:48] = 16'b1111_0000_1111_0000", kSuccess, tx "BINARY", 48, 16, 0xF0F0);
   (tx "ASSIGN_OCT[8:0] = 9'o644", kSuccess, tx "ASSIGN_OCT", 0, 9, 420);
   (tx "UNKNOWN_BASE[7:0] = 8'y123", kError, tx "UNKNOWN_BASE", 0, 8, 1);
   (tx "ASSIGN_INVALID[8:0] = beef # hex not expected", kError, tx "ASSIGN_INVALID", 0, 9, 0);
   (tx "ASSIGN_INVALID[8:0] = 5beef # starts valid dec", kError, tx "ASSIGN_INVALID", 0, 9, 5);
   (tx "INVERTED_RANGE[0:8]", kSkipped, tx "", 0, 0, 0);
   (tx "BRACKET_MISSING[4:0xyz", kError, tx "", 0, 0, 0);
   (tx "FOO[255:192] = 42", kSuccess, tx "FOO", 192, 64, 42);
   (tx "BAR[255:0] = 42", kError, tx "BAR", 0, 64, 42);
   (tx "ASSIGN_HEX[15:0] = 32'hcafebabe", kNonCritical, tx "ASSIGN_HEX", 0, 16, 0xbabe);
   (tx "ASSIGN_DECIMAL[3:0] = 255", kSuccess, tx "ASSIGN_DECIMAL", 0, 4, 0x0F);
   (tx "{.global = ""annotation""}", kSuccess, tx "", 0, 0, 0);
   (tx "HELLO {.foo = ""bar""}", kSuccess, tx "HELLO", 0, 1, 1);
   (tx "HELLO[5:0] = 42{.foo = ""bar""}", kSuccess, tx "HELLO", 0, 6, 42);
   (tx "EXPLICIT_ZERO = 0 {.foo = ""bar""}", kSuccess, tx "EXPLICIT_ZERO", 0, 1, 0)].
Example test_values :
  map (value_check [ascii_of_N 10]) value_cases = map (fun _ => true) value_cases /\
  map (value_check [ascii_of_N 13; ascii_of_N 10]) value_cases = map (fun _ => true) value_cases.
Proof. vm_compute. split; reflexivity. Qed.

(** fasm-parser_test.cc:189-235 LongValueParseTest *)
Definition long_value : text := tx "ASSIGN_LONG[191:0] = 192'h0123456789ABCDEFDEADBEEFDEADBEEFAABBCCDDEEFF0011".
Example test_long_value :
  map (fun line_end => omap (fun st => (p_events st, p_result st)) (fasm_parse Iso (fun _ => true) false (long_value ++ line_end)))
    [[ascii_of_N 10]; [ascii_of_N 13; ascii_of_N 10]] =
  let calls := [EFeature 1 (tx "ASSIGN_LONG") 0 64 0xAABBCCDDEEFF0011; EFeature 1 (tx "ASSIGN_LONG") 64 64 0xDEADBEEFDEADBEEF;
                EFeature 1 (tx "ASSIGN_LONG") 128 64 0x0123456789ABCDEF] in
  [Ok (calls, kSuccess); Ok (calls, kSuccess)].
Proof. vm_compute. reflexivity. Qed.

(** fasm-parser_test.cc:237-298 AnnotationParseTest *)
Definition annotations (input : text) : outcome (list (text * text) * N) :=
  omap (fun st => (flat_map (fun e => match e with EAnnotation _ _ n v => [(n, v)] | _ => [] end) (p_events st), p_result st))
    (fasm_parse Iso (fun _ => true) true input).
Example test_annotations :
  map annotations
    [unlines [tx "{ foo = ""bar"", baz = ""quux"" }"];
     unlines [tx "SOME_FEATURE = 42 { foo = ""bar"", baz = ""quux"" }"];
     unlines [tx "{ .escaped = ""Some quote with \""quote\"""" }"];
     unlines [tx "{ foo = ""bar"", baz = quux"" }"];
     unlines [tx "{ foo = ""bar""; baz = ""quux"" }"];
     unlines [tx "{ unterminated = ""string }"; tx "NEXT_LINE"];
     unlines [tx "{ line_continuation_is_error = ""string\"; tx "NEXT_LINE"""]] =
  [Ok ([(tx "foo", tx "bar"); (tx "baz", tx "quux")], kSuccess);
   Ok ([(tx "foo", tx "bar"); (tx "baz", tx "quux")], kSuccess);
   Ok ([(tx ".escaped", tx "Some quote with \""quote\""")], kSuccess);
   Ok ([(tx "foo", tx "bar")], kError);
   Ok ([(tx "foo", tx "bar")], kError);
   Ok ([], kError);
   Ok ([], kError)].
Proof. vm_compute. reflexivity. Qed.

(** ** database_test.cc *)
Definition pin (bank : N) (tile : text) : package_pin := {| pp_pin := []; pp_bank := bank; pp_site := []; pp_tile := tile; pp_function := [] |}.
Definition registry : banks_registry :=
  reg_create (fun _ l => l) [(0, tx "X1Y78"); (3, tx "X2Y43"); (4, tx "X1Y78")]
    [pin 0 (tx "LIOB33_X0Y93"); pin 216 (tx "GTP_CHANNEL_1_X97Y121"); pin 0 (tx "HCLK_IOI3_X1Y79")].
Example test_registry :
  map (reg_tiles registry) [0; 3; 4; 216] =
    [Some [tx "HCLK_IOI3_X1Y78"; tx "LIOB33_X0Y93"; tx "HCLK_IOI3_X1Y79"]; Some [tx "HCLK_IOI3_X2Y43"]; Some [tx "HCLK_IOI3_X1Y78"]; Some [tx "GTP_CHANNEL_1_X97Y121"]] /\
  map (reg_tile_banks registry) [tx "HCLK_IOI3_X1Y78"; tx "LIOB33_X0Y93"; tx "HCLK_IOI3_X1Y79"; tx "HCLK_IOI3_X2Y43"; tx "GTP_CHANNEL_1_X97Y121"] =
    [[0; 4]; [0]; [0]; [3]; [216]].
Proof. vm_compute. split; reflexivity. Qed.

(** ** database-parsers_test.cc *)
(** kSampleTileGridJSON, as the JSON parser gives it *)
Definition sample_tilegrid : json :=
  JObj [(tx "TILE_A", JObj [(tx "bits", JObj [(tx "CLB_IO_CLK", JObj [(tx "alias", JObj [(tx "sites", JObj []); (tx "start_offset", JInt 0); (tx "type", 
    JStr (tx "HCLK_L"))]); (tx "baseaddr", JStr (tx "0x00020E00")); (tx "frames", JInt 26); (tx "offset", JInt 50); (tx "words", JInt 1)])]); (tx 
    "grid_x", JInt 72); (tx "grid_y", JInt 26); (tx "pin_functions", JObj []); (tx "prohibited_sites", JArr []); (tx "sites", JObj []); (tx "type", JStr 
    (tx "HCLK_L_BOT_UTURN"))]); (tx "TILE_B", JObj [(tx "bits", JObj [(tx "CLB_IO_CLK", JObj [(tx "alias", JObj [(tx "sites", JObj [(tx "IOB33_Y0", JStr 
    (tx "IOB33_Y0"))]); (tx "start_offset", JInt 2); (tx "type", JStr (tx "LIOB33"))]); (tx "baseaddr", JStr (tx "0x00400000")); (tx "frames", JInt 42); 
    (tx "offset", JInt 0); (tx "words", JInt 2)])]); (tx "clock_region", JStr (tx "X0Y0")); (tx "grid_x", JInt 0); (tx "grid_y", JInt 155); (tx 
    "pin_functions", JObj [(tx "IOB_X0Y0", JStr (tx "IO_25_14"))]); (tx "prohibited_sites", JArr []); (tx "sites", JObj [(tx "IOB_X0Y0", JStr (tx 
    "IOB33"))]); (tx "type", JStr (tx "LIOB33_SING"))])].
Example test_tilegrid :
  match parse_tilegrid (Some sample_tilegrid) with
  | Ok g =>
      List.length g = 2%nat /\
      match hm_find text_eqb (tx "TILE_A") g with
      | Some t => t_x t = 72 /\ t_y t = 26 /\ List.length (t_bits t) = 1%nat /\ t_pin_functions t = []
      | None => False
      end /\
      match hm_find text_eqb (tx "TILE_B") g with
      | Some t =>
          t_pin_functions t = [(tx "IOB_X0Y0", tx "IO_25_14")] /\
          match hm_find bus_eqb BusCLBIOCLK (t_bits t) with
          | Some b => bb_base b = 4194304 /\ omap (fun a => List.length (al_sites a)) (match bb_alias b with Some a => Ok a | None => Err end) = Ok 1%nat
          | None => False
          end
      | None => False
      end
  | _ => False
  end.
Proof. vm_compute. repeat split; reflexivity. Qed.
(** TileGridParser, EmptyTileGrid: what is not JSON, or not an object, is refused. *)
Example test_tilegrid_refused : map parse_tilegrid [None; Some (JArr []); Some (JInt 32)] = [Err; Err; Err].
Proof. vm_compute. reflexivity. Qed.

(** The text after a literal is a NUL. *)
Definition nul : option ascii := Some (ascii_of_N 0).
Definition nl : text := [ascii_of_N 10].
Example test_ppips :
  map (parse_ppips nul)
    [tx "Palways"; tx "P    always"; tx "P  always   " ++ nl; tx "P always"; tx "P default"; tx "P hint"; tx "P  always   " ++ nl ++ tx "  A   default " ++ nl] =
  [Err; Ok [(tx "P", PpAlways)]; Ok [(tx "P", PpAlways)]; Ok [(tx "P", PpAlways)]; Ok [(tx "P", PpDefault)]; Ok [(tx "P", PpHint)];
   Ok [(tx "P", PpAlways); (tx "A", PpDefault)]].
Proof. vm_compute. reflexivity. Qed.

Definition sb (c b : N) (s : bool) : segment_bit := {| sb_column := c; sb_bit := b; sb_set := s |}.
Example test_segbits :
  map (parse_segbits nul)
    [tx "FOO 28_519 !29_519"; tx "BAR !1_23"; nl ++ tx " BAZ  42_42 33_93" ++ nl ++ tx " QUX !0_1 " ++ nl ++ tx "  ";
     tx "BAR[0] !1_23"; tx "BAR[1] !1_23"; tx "BAR[002] !1_23"; tx "BAR[200] !1_23"] =
  [Ok [((tx "FOO", 0), [sb 28 519 true; sb 29 519 false])]; Ok [((tx "BAR", 0), [sb 1 23 false])];
   Ok [((tx "BAZ", 0), [sb 42 42 true; sb 33 93 true]); ((tx "QUX", 0), [sb 0 1 false])];
   Ok [((tx "BAR", 0), [sb 1 23 false])]; Ok [((tx "BAR", 1), [sb 1 23 false])]; Ok [((tx "BAR", 2), [sb 1 23 false])]; Ok [((tx "BAR", 200), [sb 1 23 false])]].
Proof. vm_compute. reflexivity. Qed.

Definition a1 : package_pin := {| pp_pin := tx "A1"; pp_bank := 35; pp_site := tx "IOB_X1Y81"; pp_tile := tx "RIOB33_X43Y81"; pp_function := tx "IO_L9N_T1_DQS_AD7N_35" |}.
Definition n6 : package_pin := {| pp_pin := tx "N6"; pp_bank := 34; pp_site := tx "IOB_X1Y13"; pp_tile := tx "RIOB33_X43Y13"; pp_function := tx "IO_L18N_T2_34" |}.
Example test_package_pins :
  map (parse_pins nul)
    [tx "pin,bank,site,tile,pin_function" ++ nl ++ tx "A1,35,IOB_X1Y81,RIOB33_X43Y81,IO_L9N_T1_DQS_AD7N_35";
     nl ++ tx "A1,35,IOB_X1Y81,RIOB33_X43Y81,IO_L9N_T1_DQS_AD7N_35";
     tx "pin,bank,site,tile,pin_function" ++ nl ++ tx "A1,35,IOB_X1Y81,IO_L9N_T1_DQS_AD7N_35";
     tx "pin,bank,site,tile,pin_function" ++ nl ++ tx "A1,35,IOB_X1Y81,RIOB33_X43Y81,  IO_L9N_T1_DQS_AD7N_35" ++ nl ++ nl
       ++ tx "N6,  34,IOB_X1Y13,RIOB33_X43Y13,IO_L18N_T2_34" ++ nl] =
  [Ok [a1]; Err; Err; Ok [a1; n6]].
Proof. vm_compute. reflexivity. Qed.

(** kSamplePartJSON *)
Definition sample_part : json :=
  JObj [(tx "global_clock_regions", JObj [(tx "bottom", JObj [(tx "rows", JObj [(tx "0", JObj [(tx "configuration_buses", JObj [(tx "BLOCK_RAM", JObj 
    [(tx "configuration_columns", JObj [(tx "0", JObj [(tx "frame_count", JInt 128)]); (tx "1", JObj [(tx "frame_count", JInt 128)])])]); (tx 
    "CLB_IO_CLK", JObj [(tx "configuration_columns", JObj [(tx "0", JObj [(tx "frame_count", JInt 42)]); (tx "1", JObj [(tx "frame_count", JInt 30)]); (tx 
    "2", JObj [(tx "frame_count", JInt 36)]); (tx "3", JObj [(tx "frame_count", JInt 36)])])])])])])]); (tx "top", JObj [(tx "rows", JObj [(tx "0", JObj 
    [(tx "configuration_buses", JObj [(tx "BLOCK_RAM", JObj [(tx "configuration_columns", JObj [(tx "0", JObj [(tx "frame_count", JInt 128)]); (tx "1", 
    JObj [(tx "frame_count", JInt 128)]); (tx "2", JObj [(tx "frame_count", JInt 128)])])]); (tx "CLB_IO_CLK", JObj [(tx "configuration_columns", JObj 
    [(tx "0", JObj [(tx "frame_count", JInt 42)]); (tx "1", JObj [(tx "frame_count", JInt 30)]); (tx "2", JObj [(tx "frame_count", JInt 36)]); (tx "3", 
    JObj [(tx "frame_count", JInt 36)]); (tx "4", JObj [(tx "frame_count", JInt 36)]); (tx "5", JObj [(tx "frame_count", JInt 36)]); (tx "6", JObj [(tx 
    "frame_count", JInt 28)]); (tx "7", JObj [(tx "frame_count", JInt 36)])])])])]); (tx "1", JObj [(tx "configuration_buses", JObj [(tx "BLOCK_RAM", JObj 
    [(tx "configuration_columns", JObj [(tx "0", JObj [(tx "frame_count", JInt 128)]); (tx "1", JObj [(tx "frame_count", JInt 128)])])]); (tx 
    "CLB_IO_CLK", JObj [(tx "configuration_columns", JObj [(tx "0", JObj [(tx "frame_count", JInt 42)]); (tx "1", JObj [(tx "frame_count", JInt 30)]); (tx 
    "2", JObj [(tx "frame_count", JInt 36)])])])])])])])]); (tx "idcode", JInt 56807571); (tx "iobanks", JObj [(tx "0", JStr (tx "X1Y78")); (tx "14", JStr 
    (tx "X1Y26")); (tx "15", JStr (tx "X1Y78")); (tx "16", JStr (tx "X1Y130")); (tx "34", JStr (tx "X113Y26")); (tx "35", JStr (tx "X113Y78"))])].
Example test_part_json :
  match parse_part_json (Some sample_part) with
  | Ok p =>
      dp_idcode p = 56807571 /\ List.length (dp_iobanks p) = 6%nat /\
      map (fun b => hm_find N.eqb b (dp_iobanks p)) [15; 0; 1] = [Some (tx "X1Y78"); Some (tx "X1Y78"); None] /\
      List.length (dp_top_rows p) = 2%nat /\ List.length (dp_bottom_rows p) = 1%nat /\
      match nth_error (dp_top_rows p) 1 with Some r => hm_find bus_eqb BusCLBIOCLK r = Some [42; 30; 36] | None => False end
  | _ => False
  end.
Proof. vm_compute. repeat split; reflexivity. Qed.

Definition parts_yaml : text :=
  unlines [tx ""; tx "xc7a100tcsg324-3:"; tx "  device: xc7a100t"; tx "  package: csg324"; tx "  speedgrade: '3'"; tx "xc7a35tcpg236-2L:"; tx "  device: xc7a35t"; tx "  package: cpg236"; tx "  speedgrade: 2L"; tx "xc7a50tcpg236-1:"; tx "  device: xc7a50t"; tx "  package: cpg236"; tx "  speedgrade: '1'"].
Definition devices_yaml : text :=
  unlines [tx ""; tx """xc7a100t"":"; tx "  fabric: ""xc7a100t"""; tx """xc7a50t"":"; tx "  fabric: ""xc7a50t"""; tx """xc7a35t"":"; tx "  fabric: ""xc7a50t"""].
Example test_parts_infos :
  omap (fun l => map (fun k => hm_find text_eqb k l) [tx "xc7a100tcsg324-3"; tx "xc7a35tcpg236-2L"; tx "xc7a50tcpg236-1"]) (parse_parts_infos parts_yaml devices_yaml) =
  Ok [Some {| pi_device := tx "xc7a100t"; pi_fabric := tx "xc7a100t"; pi_package := tx "csg324"; pi_speedgrade := tx "3" |};
      Some {| pi_device := tx "xc7a35t"; pi_fabric := tx "xc7a50t"; pi_package := tx "cpg236"; pi_speedgrade := tx "2L" |};
      Some {| pi_device := tx "xc7a50t"; pi_fabric := tx "xc7a50t"; pi_package := tx "cpg236"; pi_speedgrade := tx "1" |}].
Proof. vm_compute. reflexivity. Qed.
