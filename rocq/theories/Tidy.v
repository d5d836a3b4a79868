(** Model of scripts/run-clang-tidy-cached.cc, the cached clang-tidy of the project: everything but its worker
    threads, which are in TidyPool.v.  All line numbers are of that file. *)
From Verif Require Import Base Absl Print.

(** ** Paths (std::filesystem::path on POSIX) *)
(** [path.filename()], used at :213, :307, :468, :488 *)
Definition path_filename (p : text) : text :=
  match rfind_char "/" p with Some n => skipn (S n) p | None => p end.
(** [path.extension()], used at :457: from the last dot of the filename on, unless that dot is its first character or the name is "..". *)
Definition path_extension (p : text) : text :=
  let f := path_filename p in
  match rfind_char "." f with
  | Some (S n) => if text_eqb f (tx "..") then [] else skipn (S n) f
  | _ => []
  end.

(** :134-138 IsOneOf *)
Definition is_one_of (s : text) (options : list text) : bool := existsb (text_eqb s) options.
(** :141-143 IsIncludeExtension *)
Definition is_include_extension (e : text) : bool := is_one_of e [tx ".h"; tx ".hpp"; tx ".hxx"; tx ".inl"].
(** :146-148 ConsiderExtension *)
Definition consider_extension (e : text) : bool :=
  is_one_of e [tx ".cc"; tx ".cpp"; tx ".cxx"] || is_include_extension e.

(** :196-200 ToHex: the last [n] of the 16 lower-case digits. *)
Fixpoint to_hex (n : nat) (v : N) : text :=
  match n with
  | O => []
  | S n' => to_hex n' (v / 16) ++ [hex_char false (v mod 16)]
  end.

(** A work item: path and content hash (:157 filepath_contenthash_t). *)
Definition work := (text * N)%type.

(** :211-216 PathFor, in the directory [dir] = content_dir (:206). *)
Definition path_for (dir : text) (w : work) : text :=
  dir ++ tx "/" ++ path_filename (fst w) ++ tx "-" ++ to_hex 16 (snd w).

(** ** Regular expressions.  Each is matched by hand; std::regex is ECMAScript without multiline. *)
Definition ch_newline : ascii := ascii_of_N 10.
Definition ch_return : ascii := ascii_of_N 13.
Definition ch_quote : ascii := ascii_of_N 34.
Definition in_range (a b : ascii) (c : ascii) : bool := (ccode a <=? ccode c) && (ccode c <=? ccode b).
Definition is_letter (c : ascii) : bool := in_range "a" "z" c || in_range "A" "Z" c.
Definition is_digit (c : ascii) : bool := in_range "0" "9" c.
(** [.] does not match line terminators. *)
Definition any_char (c : ascii) : bool := negb (Ascii.eqb c ch_newline || Ascii.eqb c ch_return).

(** The longest prefix of characters in a class, and the rest. *)
Fixpoint span (f : ascii -> bool) (s : text) : text * text :=
  match s with
  | [] => ([], [])
  | c :: r => if f c then let '(a, b) := span f r in (c :: a, b) else ([], s)
  end.
Definition nonempty (s : text) : bool := match s with [] => false | _ => true end.
(** Consume one given character. *)
Definition expect (c : ascii) (s : text) : option text :=
  match s with x :: r => if Ascii.eqb c x then Some r else None | [] => None end.

(** :477-478 inc_re, [#\s*include\s+"([0-9a-zA-Z_/-]+\.[a-zA-Z]+)"], at the start of [s]: the group and the rest.
    No class overlaps what follows it, so there is nothing to backtrack. *)
Definition name_char (c : ascii) : bool :=
  is_digit c || is_letter c || Ascii.eqb c "_" || Ascii.eqb c "/" || Ascii.eqb c "-".
Definition match_include (s : text) : option (text * text) :=
  match expect "#" s with
  | None => None
  | Some r =>
      let r := snd (span is_space r) in
      if starts_with (tx "include") r then
        let '(sp, r) := span is_space (skipn 7 r) in
        match (if nonempty sp then expect ch_quote r else None) with
        | None => None
        | Some r =>
            let '(n, r) := span name_char r in
            match (if nonempty n then expect "." r else None) with
            | None => None
            | Some r =>
                let '(e, r) := span is_letter r in
                match (if nonempty e then expect ch_quote r else None) with
                | None => None
                | Some r => Some (n ++ tx "." ++ e, r)
                end
            end
        end
      else None
  end.
(** :484-487 the matches in a file, one after the other; [fuel] is its length. *)
Fixpoint includes_fuel (fuel : nat) (s : text) : list text :=
  match fuel with
  | O => []
  | S f =>
      match match_include s with
      | Some (h, r) => h :: includes_fuel f r
      | None => match s with [] => [] | _ :: r => includes_fuel f r end
      end
  end.
(** :484-487 all of them *)
Definition includes (s : text) : list text := includes_fuel (List.length s) s.

(** [[a-zA-Z.]+-[a-zA-Z.-]+], common to :379-381 and :516 *)
Definition tag_body (s : text) : bool :=
  let '(a, r) := span (fun c => is_letter c || Ascii.eqb c ".") s in
  nonempty a &&
  match expect "-" r with
  | Some r => nonempty r && forallb (fun c => is_letter c || Ascii.eqb c "." || Ascii.eqb c "-") r
  | None => false
  end.
(** [.*(\[[a-zA-Z.]+-[a-zA-Z.-]+\])] over the whole of [s]: the group. Its body has no bracket, so it starts at the last one. *)
Definition check_tag (s : text) : option text :=
  match rfind_char "[" s with
  | Some n =>
      let tag := skipn n s in
      if Ascii.eqb (List.last tag " "%char) "]" && tag_body (removelast (tl tag)) && forallb any_char (firstn n s)
      then Some tag else None
  | None => None
  end.

(** :379-381 file_with_tidy, [.*(?:^|/)([^/]+):[0-9]+:[0-9]+:.*\[[a-zA-Z.]+-[a-zA-Z.-]+\]$]: what follows the group. *)
Definition after_name (s : text) : bool :=
  match expect ":" s with
  | None => false
  | Some r =>
      let '(d1, r) := span is_digit r in
      match (if nonempty d1 then expect ":" r else None) with
      | None => false
      | Some r =>
          let '(d2, r) := span is_digit r in
          match (if nonempty d2 then expect ":" r else None) with
          | None => false
          | Some r => match check_tag r with Some _ => true | None => false end
          end
      end
  end.
(** :379-381 the group starting here: its longest possible value.  [n] is the number of characters without slash to try. *)
Fixpoint name_of_length (n : nat) (s : text) : option text :=
  match n with
  | O => None
  | S n' => if after_name (skipn n s) then Some (firstn n s) else name_of_length n' s
  end.
Definition named (s : text) : option text :=
  name_of_length (List.length (fst (span (fun c => negb (Ascii.eqb c "/")) s))) s.
(** :379-381 the group after a slash: the last slash for which it works. *)
Fixpoint named_after_slash (s : text) : option text :=
  match s with
  | [] => None
  | c :: r =>
      match (if any_char c then named_after_slash r else None) with
      | Some n => Some n
      | None => if Ascii.eqb c "/" then named r else None
      end
  end.
(** :389 regex_match of a line: the file named in it. *)
Definition tidy_file (line : text) : option text :=
  match named_after_slash line with Some n => Some n | None => named line end.

(** [std::getline] until the end of the stream, :388 *)
Fixpoint stream_lines (s : text) : list text :=
  match s with
  | [] => []
  | c :: r =>
      if Ascii.eqb c ch_newline then [] :: stream_lines r
      else match stream_lines r with
           | [] => [[c]]
           | l :: ls => (c :: l) :: ls
           end
  end.

(** :375-397 FilterCheckLines: the "awk" over the lines; [on] is do_print_line. *)
Fixpoint filter_lines (interesting : text) (on : bool) (lines : list text) : text :=
  match lines with
  | [] => []
  | l :: ls =>
      let on := match tidy_file l with Some n => text_eqb n interesting | None => on end in
      (if on then l ++ [ch_newline] else []) ++ filter_lines interesting on ls
  end.
Definition filter_check_lines (interesting content : text) : text :=
  filter_lines interesting true (stream_lines content).

(** :402-424 RepairFilenameOccurences, without its file operations (those are in TidyPool.v).  The regular expression built
    from the working directory (:405-418) is in TidyCmd.v: here [repair] is any function on texts. *)
Definition cleaned (repair : text -> text) (path content : text) : text :=
  filter_check_lines (path_filename path) (repair content).

(** ** The files of the project *)
(** A source tree: the regular files below start_dir with their contents, in the order of the directory iterator. *)
Definition tree := list (text * text).

(** :447-455 file_include_re is [.*] and always matches; file_exclude_re (:83) is [^(\.git|\.github|build)/]. *)
Definition excluded (p : text) : bool :=
  starts_with (tx ".git/") p || starts_with (tx ".github/") p || starts_with (tx "build/") p.

(** :463-470 the hashes of the headers by basename; [hash] is std::hash<std::string>. *)
Definition add_header (hash : text -> N) (m : list (text * N)) (f : text * text) : list (text * N) :=
  if negb (excluded (fst f)) && is_include_extension (path_extension (fst f)) then
    let b := path_filename (fst f) in
    let old := match hm_find text_eqb b m with Some h => h | None => 0 end in
    hm_set text_eqb b (N.lxor old (hash (snd f))) m
  else m.
Definition header_hashes (hash : text -> N) (t : tree) : list (text * N) := fold_left (add_header hash) t [].

(** :480-493 the hash of a file: its own content and the headers it includes. *)
Definition add_include (headers : list (text * N)) (h : N) (inc : text) : N :=
  match hm_find text_eqb (path_filename inc) headers with Some x => N.lxor h x | None => h end.
Definition work_hash (hash : text -> N) (headers : list (text * N)) (content : text) : N :=
  fold_left (add_include headers) (includes content) (hash content).

(** :458-460, :479-493 files_of_interest_, with their hashes. *)
Definition files_of_interest (hash : text -> N) (t : tree) : list work :=
  let headers := header_hashes hash t in
  map (fun f => (fst f, work_hash hash headers (snd f)))
      (filter (fun f => negb (excluded (fst f)) && consider_extension (path_extension (fst f))) t).

(** :224-238 NeedsRefresh.  revisit_brokenfiles_if_build_config_newer is false (:125), so only existence counts; [has] is fs::exists. *)
Definition needs_refresh (has : text -> bool) (dir : text) (w : work) : bool := negb (has (path_for dir w)).
(** :438-501 BuildWorkList *)
Definition work_list (hash : text -> N) (has : text -> bool) (dir : text) (t : tree) : list work :=
  filter (needs_refresh has dir) (files_of_interest hash t).

(** ** The report *)
(** :516 check_re, [(?:^|\n).*(\[[a-zA-Z.]+-[a-zA-Z.-]+\])\n], on the line that starts here: the line, the group and what
    follows the newline. *)
Definition match_finding (s : text) : option (text * text * text) :=
  let '(l, r) := span (fun c => negb (Ascii.eqb c ch_newline)) s in
  match r with
  | [] => None
  | _ :: r => match check_tag l with Some tag => Some (l, tag, r) | None => None end
  end.
(** :525 the iterator: [^] only matches at the very start ([start]); after that a newline has to come first.  The whole
    match and the group of each. *)
Fixpoint findings_fuel (fuel : nat) (start : bool) (s : text) : list (text * text) :=
  match fuel with
  | O => []
  | S f =>
      match (if start then match_finding s else None) with
      | Some (l, tag, r) => (l ++ [ch_newline], tag) :: findings_fuel f false r
      | None =>
          match s with
          | [] => []
          | c :: r =>
              match (if Ascii.eqb c ch_newline then match_finding r else None) with
              | Some (l, tag, r') => (ch_newline :: l ++ [ch_newline], tag) :: findings_fuel f false r'
              | None => findings_fuel f false r
              end
          end
      end
  end.
Definition findings (s : text) : list (text * text) := findings_fuel (S (List.length s)) true s.

(** Strings in the order of std::map. *)
Fixpoint text_ltb (a b : text) : bool :=
  match a, b with
  | [], [] => false
  | [], _ => true
  | _, [] => false
  | x :: a', y :: b' => (ccode x <? ccode y) || (Ascii.eqb x y && text_ltb a' b')
  end.
(** :527 checks_seen[tag]++ *)
Fixpoint count_check (tag : text) (m : list (text * N)) : list (text * N) :=
  match m with
  | [] => [(tag, 1)]
  | (k, n) :: m' =>
      if text_ltb tag k then (tag, 1) :: m
      else if text_eqb tag k then (k, n + 1) :: m'
      else (k, n) :: count_check tag m'
  end.
(** :525-529 the findings of one cached output; [st] is (line_already_seen, checks_seen). *)
Definition tally (st : list text * list (text * N)) (f : text * text) : list text * list (text * N) :=
  if existsb (text_eqb (fst f)) (fst st) then st
  else (fst f :: fst st, count_check (snd f) (snd st)).
(** :520-530 over all files: the collected report and the counts; [content] is GetContentFor. *)
Definition collect (content : work -> text) (files : list work) : text * list (text * N) :=
  (flat_map (fun w => match content w with [] => [] | c => fst w ++ tx ":" ++ [ch_newline] ++ c end) files,
   snd (fold_left tally (flat_map (fun w => findings (content w)) files) ([], []))).
(** :549-553 stable_sort by decreasing count *)
Fixpoint insert_count (x : text * N) (l : list (text * N)) : list (text * N) :=
  match l with
  | [] => [x]
  | y :: l' => if snd x <? snd y then y :: insert_count x l' else x :: l
  end.
Definition by_count (m : list (text * N)) : list (text * N) := fold_right insert_count [] m.
(** :556-559 the summary, "%5d %s\n" *)
Definition pad5 (s : text) : text := repeat " "%char (5 - List.length s) ++ s.
Definition summary (m : list (text * N)) : text :=
  flat_map (fun c => pad5 (dec_text (snd c)) ++ tx " " ++ fst c ++ [ch_newline]) (by_count m).
(** :566, :621 the exit status *)
Definition exit_status (m : list (text * N)) : N := match m with [] => 0 | _ => 1 end.
