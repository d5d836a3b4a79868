(** How a run of the assembler on a described database ends, in terms of the files and of the input
    text only. *)
From Verif Require Import Base Part Fasm FasmSpec DbText DbJson Database Assembler AsmSpec DbSpec LoadSpec EndSpec.

(** Exit status 0; exit status 1; abort of the process; undefined behaviour. *)
Inductive result := Written | GivesUp | Aborts | Undefined.

Section Result.
  Context (e : environment) (root : text) (g : tilegrid) (p : db_part) (pins : list package_pin).

  (** Every bit the segment bits of the database can set lies inside a frame. *)
  Definition inside_frames : Prop :=
    forall tile rest k bus b l sb a w i, listed e root g tile rest k bus b l -> In sb l -> sb_set sb = true ->
      lands_at b sb a w i -> w < 101.

  (** [fs] starts with features the database covers, followed by [f], which it does not. *)
  Definition first_uncovered (fs : list fasm_feature) (f : fasm_feature) : Prop :=
    exists l1 l2, fs = l1 ++ f :: l2 /\ Forall (covered e root g) l1 /\ ~ covered e root g f.
  Definition all_covered (fs : list fasm_feature) : Prop := Forall (covered e root g) fs.

  (** The lines before the first one that is not accepted. *)
  Definition first_stop (input bad : text) : Prop :=
    exists l1 l2, getlines input = l1 ++ bad :: l2 /\ Forall (fun l => exists evs, line_parsed Iso l evs) l1.

  (** What decides: the first line that is not accepted; else whether the package covers the STEPDOWN
      requests; else the first feature, of the PUDC_B ones and of the input in order, that is not
      covered; else the implied features.  A name without a dot is an error, other unknown features
      abort. *)
  Inductive ends (input : text) (pud : list fasm_feature) : result -> Prop :=
  | ends_bad_line : forall bad, first_stop input bad -> line_failed Iso bad -> ends input pud GivesUp
  | ends_undefined_line : forall bad, first_stop input bad ->
      fasm_parse Iso (fun _ => true) true bad = UB -> ends input pud Undefined
  | ends_package : forall feats, text_features Iso input feats ->
      ~ package_covers g p pins (pud ++ feats) -> ends input pud Aborts
  | ends_no_dot : forall feats f, text_features Iso input feats -> package_covers g p pins (pud ++ feats) ->
      first_uncovered (pud ++ feats) f -> ~ In dot (ff_name f) -> ends input pud GivesUp
  | ends_unknown : forall feats f, text_features Iso input feats -> package_covers g p pins (pud ++ feats) ->
      first_uncovered (pud ++ feats) f -> In dot (ff_name f) -> ends input pud Aborts
  | ends_unknown_implied : forall feats name, text_features Iso input feats -> package_covers g p pins (pud ++ feats) ->
      all_covered (pud ++ feats) -> implied g p pins (pud ++ feats) name ->
      ~ covered e root g (plain_feature name) -> ends input pud Aborts
  | ends_written : forall feats, text_features Iso input feats -> package_covers g p pins (pud ++ feats) ->
      (forall f, in_design g p pins (pud ++ feats) f -> covered e root g f) -> ends input pud Written.
End Result.
