(** What is claimed of the texts the cached clang-tidy makes, without its code: the specification used by P_TidyCmd.v. *)
From Verif Require Import Base Absl.

(** ** A shell, as much of it as needed *)
(** POSIX.1-2017 XCU 2.2, 2.3, 2.7 and 2.9.1: a simple command of unquoted and single-quoted characters with output
    redirections.  Whatever else a shell knows is refused ([None]): other quoting, expansions, operators, comments,
    assignments, globs. *)
Definition blank (c : ascii) : bool := Ascii.eqb c " " || Ascii.eqb c (ascii_of_N 9).
Definition apostrophe : ascii := ascii_of_N 39.
(** Characters without a meaning to the shell anywhere in a word. *)
Definition harmless (c : ascii) : bool :=
  let n := N_of_ascii c in
  ((48 <=? n) && (n <=? 57)) || ((65 <=? n) && (n <=? 90)) || ((97 <=? n) && (n <=? 122)) ||
  existsb (Ascii.eqb c) (list_ascii_of_string "-_./,:+@%=").
Definition digit (c : ascii) : bool := (48 <=? N_of_ascii c) && (N_of_ascii c <=? 57).

(** Tokens: a word, an output redirection of a descriptor. *)
Inductive token := Word (w : text) | Out (fd : text).
(** [word]: the word under way, None between words; [plain]: no character of it was quoted; [q]: inside apostrophes.
    A word of digits, unquoted, directly before [>] is the descriptor to redirect. *)
Definition ended (word : option text) : list token := match word with Some w => [Word w] | None => [] end.
Fixpoint tokens (word : option text) (plain q : bool) (s : text) : option (list token) :=
  let so_far := match word with Some w => w | None => [] end in
  match s with
  | [] => if q then None else Some (ended word)
  | c :: r =>
      if q then
        if Ascii.eqb c apostrophe then tokens word plain false r
        else tokens (Some (so_far ++ [c])) plain true r
      else if blank c then option_map (app (ended word)) (tokens None true false r)
      else if Ascii.eqb c apostrophe then tokens (Some so_far) false true r
      else if Ascii.eqb c ">" then
        let here := match word with
                    | Some w => if plain && forallb digit w then [Out w] else [Word w; Out (tx "1")]
                    | None => [Out (tx "1")]
                    end in
        option_map (app here) (tokens None true false r)
      else if harmless c then tokens (Some (so_far ++ [c])) plain false r
      else None
  end.
(** The words of the command, and where its output goes: descriptor and file. *)
Fixpoint simple (ts : list token) : option (list text * list (text * text)) :=
  match ts with
  | [] => Some ([], [])
  | Word w :: r => option_map (fun x => (w :: fst x, snd x)) (simple r)
  | Out d :: Word f :: r => option_map (fun x => (fst x, (d, f) :: snd x)) (simple r)
  | Out _ :: _ => None
  end.
(** A first word that is no assignment and no reserved word. *)
Definition command_name (w : text) : bool :=
  negb (existsb (Ascii.eqb "=") w) &&
  negb (existsb (fun k => if list_eq_dec ascii_dec w k then true else false)
         [tx "if"; tx "then"; tx "else"; tx "elif"; tx "fi"; tx "do"; tx "done"; tx "case"; tx "esac"; tx "while"; tx "until"; tx "for"; tx "in"]).
Definition shell (s : text) : option (list text * list (text * text)) :=
  match tokens None true false s with
  | Some (Word w :: ts) => if command_name w then simple (Word w :: ts) else None
  | _ => None
  end.

(** No apostrophe in it. *)
Definition unquoted (s : text) : Prop := ~ In apostrophe s.

(** ** Numbers and clang-tidy's version *)
Definition digits (s : text) : Prop := s <> [] /\ Forall (fun c => digit c = true) s.
Definition decimal_value (s : text) : Z := fold_left (fun v c => 10 * v + (Z.of_N (N_of_ascii c) - 48))%Z s 0%Z.
(** [d] is the first number that follows the word "version" and a space in [s]. *)
Definition version_number (s d : text) : Prop :=
  exists before after, s = before ++ tx "version " ++ d ++ after /\ digits d /\
    (forall c r, after = c :: r -> digit c = false) /\
    (forall b a e, s = b ++ tx "version " ++ e :: a -> digit e = true -> (List.length before <= List.length b)%nat).
Definition no_version (s : text) : Prop := forall b a e, s = b ++ tx "version " ++ e :: a -> digit e = false.

(** ** Paths in the output *)
(** Lines, put together: every line but the last is ended. *)
Fixpoint joined (ls : list text) : text :=
  match ls with
  | [] => []
  | [l] => l
  | l :: r => l ++ [ascii_of_N 10] ++ joined r
  end.
(** [p] is the directory [root], up to what is at the places of its dots. *)
Definition reads_as (root p : text) : Prop :=
  Forall2 (fun c x => if Ascii.eqb c "." then x <> ascii_of_N 10 /\ x <> ascii_of_N 13 else c = x) root p.
Definition below (root l m : text) : Prop := exists p, reads_as root p /\ l = p ++ tx "/" ++ m.
(** [m] is [l] without the first of the roots that it is below of. *)
Inductive without_root : list text -> text -> text -> Prop :=
| wr_none : forall l, without_root [] l l
| wr_here : forall r rs l m, below r l m -> without_root (r :: rs) l m
| wr_next : forall r rs l m, (forall x, ~ below r l x) -> without_root rs l m -> without_root (r :: rs) l m.
(** [m] is [l] without a "./" at its start. *)
Inductive without_dot : text -> text -> Prop :=
| wd_dot : forall m, without_dot (tx "./" ++ m) m
| wd_not : forall l, (forall x, l <> tx "./" ++ x) -> without_dot l l.
Definition short_line (roots : list text) (l l' : text) : Prop := exists m, without_root roots l m /\ without_dot m l'.
Definition plain_root (r : text) : Prop :=
  ~ In (ascii_of_N 10) r /\ Forall (fun c => ~ In c (list_ascii_of_string "^$\*+?()[]{}|")) r.
