(** Specification of the .bit container and of big-endian numbers, independent of the
    writer. *)
From Verif Require Import Base.

Definition be16 (n : N) : list N := [n / 256; n mod 256].
Definition be32 (n : N) : list N :=
  [n / 2 ^ 24; n / 2 ^ 16 mod 256; n / 2 ^ 8 mod 256; n mod 256].

Definition bytes_of_text (t : text) : list N := map N_of_ascii t.
Definition len_N {A} (l : list A) : N := N.of_nat (length l).

(** A length-prefixed, NUL-terminated string; the length counts the NUL. *)
Definition field (t : text) : list N := be16 (len_N t + 1) ++ bytes_of_text t ++ [0].

(** Preamble and the four text fields, up to and including the key 'e'. *)
Definition bit_header (source generator part date time : text) : list N :=
  [0x00; 0x09; 0x0f; 0xf0; 0x0f; 0xf0; 0x0f; 0xf0; 0x0f; 0xf0; 0x00; 0x00; 0x01]
  ++ [97 (* a *)] ++ field (source ++ tx ";Generator=" ++ generator)
  ++ [98 (* b *)] ++ field part
  ++ [99 (* c *)] ++ field date
  ++ [100 (* d *)] ++ field time
  ++ [101 (* e *)].

(** The file: header, number of payload bytes, payload. *)
Definition bit_file (source generator part date time : text) (words : list N) : list N :=
  bit_header source generator part date time
  ++ be32 (4 * len_N words) ++ flat_map be32 words.

(** Bus width detection pattern and synchronisation word (UG470). *)
Definition sync_preamble : list N :=
  repeat 0xFFFFFFFF 8 ++ [0x000000BB; 0x11220044; 0xFFFFFFFF; 0xFFFFFFFF; 0xAA995566].
