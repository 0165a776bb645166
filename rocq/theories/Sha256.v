(** Sha256.v -- an executable SHA-256 (FIPS 180-4), used to instantiate the hash
    parameter of the model for conformance tests and for concrete witnesses.
    Models the external crate [sha2] (src/*/hash.rs: `Sha256::new`, `update`,
    `finalize`).  It is validated against the test vectors of the repository in
    Conformance.v; no theorem about other hash functions depends on it. *)
From Verif Require Import Base.
From Coq Require Import NArith.

Section Sha.
Local Open Scope N_scope.

Definition W32 : N := 4294967296.
Definition add32 (a b : N) : N := N.land (a + b) 4294967295.
Definition rotr (n x : N) : N :=
  N.lor (N.shiftr x n) (N.land (N.shiftl x (32 - n)) 4294967295).
Definition xor3 (a b c : N) : N := N.lxor a (N.lxor b c).
Definition ch (x y z : N) : N := N.lxor (N.land x y) (N.land (N.lxor x 4294967295) z).
Definition maj (x y z : N) : N := xor3 (N.land x y) (N.land x z) (N.land y z).
Definition bsig0 (x : N) : N := xor3 (rotr 2 x) (rotr 13 x) (rotr 22 x).
Definition bsig1 (x : N) : N := xor3 (rotr 6 x) (rotr 11 x) (rotr 25 x).
Definition ssig0 (x : N) : N := xor3 (rotr 7 x) (rotr 18 x) (N.shiftr x 3).
Definition ssig1 (x : N) : N := xor3 (rotr 17 x) (rotr 19 x) (N.shiftr x 10).

Definition K256 : list N := [
  0x428a2f98; 0x71374491; 0xb5c0fbcf; 0xe9b5dba5; 0x3956c25b; 0x59f111f1; 0x923f82a4; 0xab1c5ed5;
  0xd807aa98; 0x12835b01; 0x243185be; 0x550c7dc3; 0x72be5d74; 0x80deb1fe; 0x9bdc06a7; 0xc19bf174;
  0xe49b69c1; 0xefbe4786; 0x0fc19dc6; 0x240ca1cc; 0x2de92c6f; 0x4a7484aa; 0x5cb0a9dc; 0x76f988da;
  0x983e5152; 0xa831c66d; 0xb00327c8; 0xbf597fc7; 0xc6e00bf3; 0xd5a79147; 0x06ca6351; 0x14292967;
  0x27b70a85; 0x2e1b2138; 0x4d2c6dfc; 0x53380d13; 0x650a7354; 0x766a0abb; 0x81c2c92e; 0x92722c85;
  0xa2bfe8a1; 0xa81a664b; 0xc24b8b70; 0xc76c51a3; 0xd192e819; 0xd6990624; 0xf40e3585; 0x106aa070;
  0x19a4c116; 0x1e376c08; 0x2748774c; 0x34b0bcb5; 0x391c0cb3; 0x4ed8aa4a; 0x5b9cca4f; 0x682e6ff3;
  0x748f82ee; 0x78a5636f; 0x84c87814; 0x8cc70208; 0x90befffa; 0xa4506ceb; 0xbef9a3f7; 0xc67178f2].

Definition st8 : Type := (N * N * N * N * N * N * N * N)%type.

Definition H0_256 : st8 :=
  (0x6a09e667, 0xbb67ae85, 0x3c6ef372, 0xa54ff53a, 0x510e527f, 0x9b05688c, 0x1f83d9ab, 0x5be0cd19).

Definition round (s : st8) (kw : N) : st8 :=
  match s with
  | (a, b, c, d, e, f, g, h) =>
      let t1 := add32 (add32 h (bsig1 e)) (add32 (ch e f g) kw) in
      let t2 := add32 (bsig0 a) (maj a b c) in
      (add32 t1 t2, a, b, c, add32 d t1, e, f, g)
  end.

(** The 16-word window of the message schedule, oldest word first. *)
Fixpoint rounds (ks : list N) (w : list N) (s : st8) : st8 :=
  match ks with
  | [] => s
  | k :: ks' =>
      match w with
      | w0 :: w' =>
          let s' := round s (add32 k w0) in
          let nw := add32 (add32 (ssig1 (nth 14 w 0)) (nth 9 w 0))
                          (add32 (ssig0 (nth 1 w 0)) w0) in
          rounds ks' (w' ++ [nw]) s'
      | [] => s
      end
  end.

Definition add_st (x y : st8) : st8 :=
  match x, y with
  | (a,b,c,d,e,f,g,h), (a',b',c',d',e',f',g',h') =>
      (add32 a a', add32 b b', add32 c c', add32 d d',
       add32 e e', add32 f f', add32 g g', add32 h h')
  end.

Fixpoint words (fuel : nat) (l : list byte) : list N :=
  match fuel with
  | O => []
  | S f =>
      match l with
      | a :: b :: c :: d :: r =>
          (((to_N a * 256 + to_N b) * 256 + to_N c) * 256 + to_N d) :: words f r
      | _ => []
      end
  end.

Fixpoint blocks (fuel : nat) (l : list byte) (s : st8) : st8 :=
  match fuel with
  | O => s
  | S f =>
      match l with
      | [] => s
      | _ =>
          let blk := firstn 64 l in
          blocks f (skipn 64 l) (add_st s (rounds K256 (words 16 blk) s))
      end
  end.

Definition byte_of_N (n : N) : byte :=
  match Byte.of_N (n mod 256) with Some b => b | None => x00 end.

Definition be (k : nat) (n : N) : list byte :=
  rev (map (fun i => byte_of_N (N.shiftr n (8 * N.of_nat i))) (seq 0 k)).

Definition pad (l : list byte) : list byte :=
  let len := length l in
  let zeros := ((119 - Nat.modulo len 64) mod 64)%nat in
  l ++ [x80] ++ repeat x00 zeros ++ be 8 (8 * N.of_nat len).

Definition sha_list (l : list byte) : list byte :=
  let p := pad l in
  match blocks (S (Nat.div (length p) 64)) p H0_256 with
  | (a, b, c, d, e, f, g, h) =>
      be 4 a ++ be 4 b ++ be 4 c ++ be 4 d ++ be 4 e ++ be 4 f ++ be 4 g ++ be 4 h
  end.
End Sha.

Lemma be_length : forall k n, length (be k n) = k.
Proof. intros k n; unfold be; rewrite rev_length, map_length, seq_length; reflexivity. Qed.

Lemma sha_list_length : forall l, length (sha_list l) = 32%nat.
Proof.
  intros l; unfold sha_list.
  destruct (blocks _ _ _) as [[[[[[[a b] c] d] e] f] g] h].
  rewrite !app_length, !be_length; reflexivity.
Qed.

(** SHA-256 as a function into 32-byte arrays. *)
Definition sha256 (l : list byte) : bytes32 := mk32 (sha_list l).

Lemma sha256_list : forall l, b32 (sha256 l) = sha_list l.
Proof. intros l; apply mk32_list, sha_list_length. Qed.
