(** SpecRead.v -- what a proof reads from a storage with any content, and what a push writes.  Independent of the model. *)
From Verif Require Import Base SpecBits SpecBinary SpecPosition SpecCalls.

Section Read.
Variable H : list byte -> bytes32.

(** The hash a proof uses for the subtree [x] (first leaf and number of leaves): if the number of
    leaves is a power of two, the one stored at its place; else the one computed from the leaves. *)
Definition hash_used (d : Z -> option (Z * bytes32)) (ds : list (list byte)) (x : nat * nat) : option bytes32 :=
  if (snd x =? 2 ^ Nat.log2_up (snd x))%nat
  then match d (place x) with Some e => Some (snd e) | None => None end
  else Some (mth H (firstn (snd x) (skipn (fst x) ds))).

(** Reading one after the other up to the first that is missing. *)
Fixpoint read_on (d : Z -> option (Z * bytes32)) (ds : list (list byte)) (l : list (nat * nat)) : result Z (list bytes32) :=
  match l with
  | [] => Ok []
  | x :: l' =>
      match hash_used d ds x with
      | None => Err (place x)
      | Some h => match read_on d ds l' with Ok hs => Ok (h :: hs) | Err k => Err k end
      end
  end.
(** A proof of leaf [i]: the leaf hash as stored, and the subtrees on the audit path; or the number
    of what is missing, which for the leaf is that of the leaf, else that of the place. *)
Definition proof_read (d : Z -> option (Z * bytes32)) (ds : list (list byte)) (i : nat) : result Z (list bytes32) :=
  match d (index_of 0 i) with
  | None => Err (Z.of_nat i)
  | Some e => match read_on d ds (side_ranges (length ds) i 0 (length ds)) with Ok hs => Ok (snd e :: hs) | Err k => Err k end
  end.
End Read.

(** The key of a call. *)
Definition key_of {K V} (c : call K V) : K := match c with Get k => k | Put k _ => k | Del k => k end.
