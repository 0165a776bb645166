(** SpecBits.v -- specification of bit access and common prefixes on byte strings:
    a byte string is a big-endian number / a sequence of bits, most significant
    first.  Independent of the model. *)
From Verif Require Import Base.

(** The big-endian value of a byte string. *)
Fixpoint be_value (a : list byte) : Z :=
  match a with
  | [] => 0
  | x :: a' => Z.of_N (Byte.to_N x) * 2 ^ (8 * Z.of_nat (length a')) + be_value a'
  end.

(** The bits of a byte string, most significant bit of the first byte first. *)
Definition bits_of_byte (x : byte) : list bool :=
  map (fun i => N.testbit (Byte.to_N x) i) [7; 6; 5; 4; 3; 2; 1; 0]%N.
Definition bits_of (a : list byte) : list bool := concat (map bits_of_byte a).

(** Length of the longest common prefix of two bit lists. *)
Fixpoint lcp (a b : list bool) : nat :=
  match a, b with
  | x :: a', y :: b' => if Bool.eqb x y then S (lcp a' b') else O
  | _, _ => O
  end.
