(** What a consumer of the FASM parser is shown when it refuses features. *)
From Verif Require Import Base Fasm.

(** [shown cb h d full]: of the calls [full] that a consumer which refuses nothing gets, those that
    the consumer [cb] gets; [h] are the calls it got before.  Once it has refused a piece of the
    feature of line [d], it is not shown the further pieces of that line's feature.  Nothing else
    is left out. *)
Fixpoint shown (cb : list event -> bool) (h : list event) (d : option N) (full : list event)
    : list event :=
  match full with
  | [] => []
  | EAnnotation l n an av :: rest =>
      EAnnotation l n an av :: shown cb (h ++ [EAnnotation l n an av]) d rest
  | EFeature l n s w v :: rest =>
      if match d with Some l' => l =? l' | None => false end then shown cb h d rest
      else
        let h' := h ++ [EFeature l n s w v] in
        EFeature l n s w v :: shown cb h' (if cb h' then d else Some l) rest
  end.

(** Some call in [calls] was a feature the consumer refused. *)
Definition refuses (cb : list event -> bool) (calls : list event) : Prop :=
  exists a l n s w v b, calls = a ++ EFeature l n s w v :: b /\ cb (a ++ [EFeature l n s w v]) = false.
