(** ModelText.v -- hexadecimal text, as produced and read by the external crate `hex` 0.4
    ([hex::encode], [hex::decode]).  A Rust [String] is the list of its UTF-8 bytes. *)
From Verif Require Import Base.
From Coq Require Import String.

(** The bytes of a string literal. *)
Definition text (s : string) : list byte := list_byte_of_string s.

Definition hex_digits : list byte := text "0123456789abcdef".
Definition hex_digit (n : Z) : byte := nth (Z.to_nat n) hex_digits x00.

(** [hex::encode]: two lower case digits per byte *)
Definition hex_encode (l : list byte) : list byte :=
  List.concat (map (fun b => [hex_digit (Z_of_byte b / 16); hex_digit (Z_of_byte b mod 16)]) l).

(** The value of a digit: lower or upper case *)
Definition hex_val (c : byte) : option Z :=
  let n := Z_of_byte c in
  if (48 <=? n) && (n <=? 57) then Some (n - 48)
  else if (97 <=? n) && (n <=? 102) then Some (n - 87)
  else if (65 <=? n) && (n <=? 70) then Some (n - 55)
  else None.

(** [hex::decode]; [None] for an odd number of characters or a character that is no digit *)
Fixpoint hex_decode (s : list byte) : option (list byte) :=
  match s with
  | [] => Some []
  | [_] => None
  | c :: d :: s' =>
      match hex_val c, hex_val d, hex_decode s' with
      | Some x, Some y, Some l => Some (byte_of_Z (16 * x + y) :: l)
      | _, _, _ => None
      end
  end.
