(** Model of fpga/xilinx/bitstream-reader.h and big-endian-span.h
    (PrintHeader and PrintFpgaConfigurationLogicData are in Print.v). *)
From Verif Require Import Base BitOps Packet.

(** bitstream-reader.h:176-179 kSyncWord *)
Definition sync_bytes : list N := [0xAA; 0x99; 0x55; 0x66].

(** big-endian-span.h:31-38: conversion of the first four bytes to a word.
    Fewer than four bytes: out-of-bounds read. *)
Definition be_word (bs : list N) : outcome N :=
  match bs with
  | b0 :: b1 :: b2 :: b3 :: _ =>
      Ok (N.lor (N.lor (N.lor (N.shiftl b0 24) (N.shiftl b1 16)) (N.shiftl b2 8)) b3)
  | _ => UB
  end.

(** big-endian-span.h:56-84 iteration (begin/end/++/==), driven by the vector range
    constructor of bitstream-reader.h:170-171.  The end iterator is the empty
    span, [++] is [subspan(4)] which throws when fewer bytes are left -- but the
    element is read first. *)
Fixpoint be_words (bs : list N) : outcome (list N) :=
  match bs with
  | [] => Ok []
  | b0 :: b1 :: b2 :: b3 :: rest =>
      obind (be_word bs) (fun w => obind (be_words rest) (fun ws => Ok (w :: ws)))
  | _ => UB
  end.

(** The comparison of std::search (bitstream-reader.h:153-158). *)
Fixpoint list_N_eqb (a b : list N) : bool :=
  match a, b with
  | [], [] => true
  | x :: a', y :: b' => (x =? y) && list_N_eqb a' b'
  | _, _ => false
  end.

(** std::search for the sync word (bitstream-reader.h:153-158): the bytes after
    its first occurrence. *)
Fixpoint after_sync (bs : list N) : option (list N) :=
  match bs with
  | [] => None
  | _ :: bs' =>
      if list_N_eqb (firstn 4 bs) sync_bytes then Some (skipn 4 bs)
      else after_sync bs'
  end.

(** bitstream-reader.h:144-174 InitWithBytes: [Ok None] = no sync word. *)
Definition init_with_bytes (bs : list N) : outcome (option (list N)) :=
  match after_sync bs with
  | None => Ok None
  | Some rest => obind (be_words rest) (fun ws => Ok (Some ws))
  end.

(** ** Packet iterator, bitstream-reader.h:36-64.
    State: parse_result_.first, parse_result_.second, words_. *)
Record rd_iter := { ri_rest : list N; ri_pkt : option packet; ri_words : list N }.

(** :210-232 operator++ : the do-while loop.  Span comparison ([==]) compares
    contents.  [fuel]: one more than the number of words always suffices. *)
Fixpoint ri_loop (fuel : nat) (rest : list N) (pkt : option packet)
  : outcome rd_iter :=
  match fuel with
  | O => NoFuel
  | S fuel' =>
      let (rest', pkt') := init_with_words rest pkt in
      if list_N_eqb rest' rest then
        Ok {| ri_rest := rest; ri_pkt := pkt; ri_words := [] |}
      else
        match rest', pkt' with
        | _ :: _, None => ri_loop fuel' rest' pkt'
        | _, _ => Ok {| ri_rest := rest'; ri_pkt := pkt'; ri_words := rest |}
        end
  end.

(** bitstream-reader.h:212-230 iterator::operator++. *)
Definition ri_next (i : rd_iter) : outcome rd_iter :=
  obind (ri_loop (S (length (ri_rest i))) (ri_rest i) (ri_pkt i)) (fun i' =>
    Ok match ri_pkt i' with
       | None => {| ri_rest := ri_rest i'; ri_pkt := None; ri_words := [] |}
       | Some _ => i'
       end).

(** :193-207 begin(); end() is an iterator whose words_ is empty and
    [operator==] (:234-237) compares words_ only. *)
Definition ri_begin (words : list N) : outcome rd_iter :=
  ri_next {| ri_rest := words; ri_pkt := None; ri_words := [] |}.

(** Range-for over the reader (as configuration.h:121): the packets it delivers.  Dereferencing an
    iterator without a packet would be UB. *)
Fixpoint ri_packets (fuel : nat) (i : rd_iter) : outcome (list packet) :=
  match fuel with
  | O => NoFuel
  | S fuel' =>
      match ri_words i with
      | [] => Ok []
      | _ =>
          match ri_pkt i with
          | None => UB
          | Some k =>
              obind (ri_next i) (fun i' =>
              obind (ri_packets fuel' i') (fun ks => Ok (k :: ks)))
          end
      end
  end.

(** All packets of a reader constructed from [words] (bitstream-reader.h:66-67,193-207). *)
Definition reader_packets (words : list N) : outcome (list packet) :=
  obind (ri_begin words) (fun i => ri_packets (S (length words)) i).
