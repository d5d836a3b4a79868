(** Model of fpga/xilinx/big-endian-span.h (BigEndianSpan<WordType, ByteType>), for a word type of [k]
    bytes.  A span is the list of its bytes; writing through it returns the new bytes of the container. *)
From Verif Require Import Base.

Section BigEndianSpan.
  Context (k : nat).   (** :25 kBytesPerElement = sizeof(WordType) *)

  (** :31-38 value_type::operator WordType: OR of the first [k] bytes, shifted; the result is truncated
      to the word type.  Reading past the span is undefined. *)
  Fixpoint be_or (n : nat) (bs : list N) (word : N) : outcome N :=
    match n with
    | O => Ok word
    | S n' =>
        match bs with
        | [] => UB
        | b :: r => be_or n' r (N.lor word (N.shiftl b (8 * N.of_nat n')) mod 2 ^ (8 * N.of_nat k))
        end
    end.
  Definition be_get (bs : list N) : outcome N := be_or k bs 0.

  (** :40-45 value_type::operator=: the bytes of the container after the assignment. *)
  Fixpoint be_put (n : nat) (word : N) (bs : list N) : outcome (list N) :=
    match n with
    | O => Ok bs
    | S n' =>
        match bs with
        | [] => UB
        | _ :: r => obind (be_put n' word r) (fun r' => Ok (N.land (N.shiftr word (8 * N.of_nat n')) 0xFF :: r'))
        end
    end.

  (** :92-98 size(), length(), empty() *)
  Definition be_size (bs : list N) : nat := (List.length bs / k)%nat.
  Definition be_empty (bs : list N) : bool := Nat.eqb (be_size bs) 0.

  (** :100-103 operator[]: the assertion, then the bytes from the position on.  The element, converted. *)
  Definition be_at (bs : list N) (pos : nat) : outcome N :=
    if Nat.ltb pos (be_size bs) then be_get (skipn (pos * k) bs) else Crash.
  (** [span[pos] = word]: the container afterwards. *)
  Definition be_store (bs : list N) (pos : nat) (word : N) : outcome (list N) :=
    if Nat.ltb pos (be_size bs)
    then obind (be_put k word (skipn (pos * k) bs)) (fun r => Ok (firstn (pos * k) bs ++ r))
    else Crash.

  (** :56-84, :107-108 iteration from begin() to end(), converting every element: end() is the empty
      span and the comparison is one of contents; ++ is subspan(k), which throws when it would leave
      the span.  The element is converted before the iterator moves.  [fuel]: the number of bytes. *)
  Fixpoint be_iterate (fuel : nat) (bs : list N) : outcome (list N) :=
    match bs with
    | [] => Ok []
    | _ =>
        match fuel with
        | O => NoFuel
        | S fuel' =>
            obind (be_get bs) (fun w =>
            if Nat.leb k (List.length bs)
            then obind (be_iterate fuel' (skipn k bs)) (fun ws => Ok (w :: ws))
            else Crash)
        end
    end.
  Definition be_all (bs : list N) : outcome (list N) := be_iterate (List.length bs) bs.
End BigEndianSpan.
