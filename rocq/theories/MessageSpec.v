(** What the messages of the FASM parser say. *)
From Verif Require Import Base Fasm FasmSpec FasmLog.

(** The line a message is about. *)
Definition line_of (m : message) : option N :=
  match m with
  | MNoFinalNewline => None
  | MBracket n _ | MInverted n _ _ _ | MWidth n _ _ _ _ _ | MTooWide n _ _ _ _ | MBase n _ | MNoValue n _ _ _
  | MAnnotEqual n _ | MAnnotQuote n _ _ | MAnnotOpen n | MAnnotEnd n _ | MEol n _ => Some n
  end.
(** The same message about line [n]. *)
Definition about (n : N) (m : message) : message :=
  match m with
  | MNoFinalNewline => MNoFinalNewline
  | MBracket _ s => MBracket n s
  | MInverted _ f a b => MInverted n f a b
  | MWidth _ v f a b w => MWidth n v f a b w
  | MTooWide _ f a b w => MTooWide n f a b w
  | MBase _ c => MBase n c
  | MNoValue _ f a b => MNoValue n f a b
  | MAnnotEqual _ a => MAnnotEqual n a
  | MAnnotQuote _ f a => MAnnotQuote n f a
  | MAnnotOpen _ => MAnnotOpen n
  | MAnnotEnd _ c => MAnnotEnd n c
  | MEol _ c => MEol n c
  end.
(** How bad the problem is. *)
Definition severity (m : message) : N :=
  match m with
  | MNoValue _ _ _ _ => kInfo
  | MWidth _ _ _ _ _ _ => kNonCritical
  | MInverted _ _ _ _ => kSkipped
  | _ => kError
  end.
Definition worst (ms : list message) : N := fold_left N.max (map severity ms) kSuccess.

(** The messages of a file from those of its lines: line [n] first. *)
Fixpoint numbered_messages (n : N) (l : list (list message)) : list message :=
  match l with
  | [] => []
  | ms :: r => map (about n) ms ++ numbered_messages (n + 1) r
  end.
