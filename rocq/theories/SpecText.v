(** SpecText.v -- what it means for a text to spell bytes in hexadecimal.  Independent of the model. *)
From Verif Require Import Base.

(** The number with the given digits, most significant first. *)
Definition number (radix : Z) (digits : list Z) : Z := fold_left (fun a d => radix * a + d) digits 0.

(** ASCII: 0-9 is 48-57, a-f is 97-102, A-F is 65-70. *)
Definition lower_digit (c : byte) (v : Z) : Prop :=
  0 <= v < 10 /\ Z_of_byte c = 48 + v \/ 10 <= v < 16 /\ Z_of_byte c = 97 + (v - 10).
Definition any_digit (c : byte) (v : Z) : Prop :=
  lower_digit c v \/ 10 <= v < 16 /\ Z_of_byte c = 65 + (v - 10).

(** Two digits per byte, and the same number in base 16 as the bytes in base 256. *)
Definition spells (digit : byte -> Z -> Prop) (t l : list byte) : Prop :=
  length t = (2 * length l)%nat /\
  exists ds, Forall2 digit t ds /\ number 16 ds = number 256 (map Z_of_byte l).

(** The decimal text of a number: no leading zero, except for 0 itself. *)
Definition decimal (t : list byte) (z : Z) : Prop :=
  t <> [] /\ (hd_error t = Some x30 -> length t = 1%nat) /\
  exists ds, Forall2 (fun c d => 0 <= d < 10 /\ Z_of_byte c = 48 + d) t ds /\ number 10 ds = z.

(** The layout of a struct in Debug output: Name { label: value, label: value }.  Numbers are
    in decimal, byte strings in lower-case hexadecimal between quotation marks. *)
Inductive value := Number (z : Z) | Bytes (l : list byte).
Definition quote : byte := x22.
Inductive value_text : value -> list byte -> Prop :=
| VT_number : forall z t, decimal t z -> value_text (Number z) t
| VT_bytes : forall l t, spells lower_digit t l -> value_text (Bytes l) (quote :: t ++ [quote]).
Inductive fields_text : list (list byte * value) -> list byte -> Prop :=
| FT_last : forall n v t, value_text v t -> fields_text [(n, v)] (n ++ [x3a; x20] ++ t)
| FT_more : forall n v t fs u, value_text v t -> fields_text fs u ->
    fields_text ((n, v) :: fs) (n ++ [x3a; x20] ++ t ++ [x2c; x20] ++ u).
Inductive struct_text : list byte -> list (list byte * value) -> list byte -> Prop :=
| ST_struct : forall name fs t, fields_text fs t -> struct_text name fs (name ++ [x20; x7b; x20] ++ t ++ [x20; x7d]).
