(** Base.v -- the computation and data vocabulary shared by all model files.

    Nothing here models a particular function of the crate; it fixes how Rust
    notions are rendered in Gallina:
    - [result]   : Rust's [Result<A, E>] as plain data;
    - [out]      : the outcome of running code: a value, a panic, or "model fuel
                   exhausted" ([Fuel], never produced by any run: see C44);
    - [M S A]    : code that may change a state of type [S] (a `&mut`) and panic;
    - [profile]  : how the crate was built: overflow checks on or off (integers
                   wrap), debug assertions on or off, 32-bit or 64-bit [usize]. *)
From Coq Require Export List ZArith Lia Bool Strings.Byte.
From Coq Require Import NArith Eqdep_dec.
Export ListNotations.
Open Scope Z_scope.

(** * Rust [Result] and outcomes of computations *)

Inductive result (E A : Type) : Type :=
| Ok (a : A)
| Err (e : E).
Arguments Ok {E A} a.
Arguments Err {E A} e.

Inductive out (A : Type) : Type :=
| Val (a : A)
| Panic
| Fuel.
Arguments Val {A} a.
Arguments Panic {A}.
Arguments Fuel {A}.

Definition obind {A B} (m : out A) (f : A -> out B) : out B :=
  match m with Val a => f a | Panic => Panic | Fuel => Fuel end.

Definition M (S A : Type) : Type := S -> S * out A.

Definition ret {S A} (a : A) : M S A := fun s => (s, Val a).
Definition panic {S A} : M S A := fun s => (s, Panic).
Definition fuel_out {S A} : M S A := fun s => (s, Fuel).
Definition bind {S A B} (m : M S A) (f : A -> M S B) : M S B :=
  fun s => match m s with
           | (s', Val a) => f a s'
           | (s', Panic) => (s', Panic)
           | (s', Fuel) => (s', Fuel)
           end.
(** Rust's [?] operator (the error type is already the caller's). *)
Definition bind_try {S E A B} (m : M S (result E A)) (f : A -> M S (result E B))
  : M S (result E B) :=
  bind m (fun r => match r with Ok a => f a | Err e => ret (Err e) end).
(** [?] followed by [From::from] on the error. *)
Definition map_err {S E F A} (g : E -> F) (m : M S (result E A)) : M S (result F A) :=
  bind m (fun r => match r with Ok a => ret (Ok a) | Err e => ret (Err (g e)) end).
Definition lift {S A} (o : out A) : M S A := fun s => (s, o).
Definition get_state {S} : M S S := fun s => (s, Val s).
Definition put_state {S} (s : S) : M S unit := fun _ => (s, Val tt).

Declare Scope m_scope.
Delimit Scope m_scope with M.
Notation "x <- m ;; k" := (bind m (fun x => k))
  (at level 61, m at next level, right associativity) : m_scope.
Notation "' p <- m ;; k" := (bind m (fun p => k))
  (at level 61, p pattern, m at next level, right associativity) : m_scope.
Notation "x <-? m ;; k" := (bind_try m (fun x => k))
  (at level 61, m at next level, right associativity) : m_scope.
Notation "' p <-? m ;; k" := (bind_try m (fun p => k))
  (at level 61, p pattern, m at next level, right associativity) : m_scope.
Notation "x <-! o ;; k" := (obind o (fun x => k))
  (at level 61, o at next level, right associativity) : m_scope.
Notation "' p <-! o ;; k" := (obind o (fun p => k))
  (at level 61, p pattern, o at next level, right associativity) : m_scope.
Open Scope m_scope.

(** * Machine integers *)

(** A build: whether arithmetic is checked for overflow, whether [debug_assert!] is compiled
    in, and the width of [usize].  Cargo sets the two switches independently; [dev] has both
    on, [release] has both off. *)
Inductive width := W32 | W64.
Record profile := { overflow_checks : bool; debug_assertions : bool; usize_width : width }.
Definition Debug : profile :=
  {| overflow_checks := true; debug_assertions := true; usize_width := W64 |}.
Definition Release : profile :=
  {| overflow_checks := false; debug_assertions := false; usize_width := W64 |}.

Definition U64 : Z := 2 ^ 64.
Definition in_u64 (z : Z) : bool := (0 <=? z) && (z <? U64).
Definition in_i64 (z : Z) : bool := (- 2 ^ 63 <=? z) && (z <? 2 ^ 63).
(** Two's complement reading of [z mod 2^64] (Rust's [as i64]). *)
Definition as_i64 (z : Z) : Z :=
  let w := z mod U64 in if w <? 2 ^ 63 then w else w - U64.
(** Rust's [as u64]. *)
Definition as_u64 (z : Z) : Z := z mod U64.

(** A u64 arithmetic result: panics on overflow in builds with overflow checks, wraps in
    the others. *)
Definition u64_ovf (pr : profile) (z : Z) : out Z :=
  if in_u64 z then Val z
  else if overflow_checks pr then Panic else Val (as_u64 z).
Definition i64_ovf (pr : profile) (z : Z) : out Z :=
  if in_i64 z then Val z
  else if overflow_checks pr then Panic else Val (as_i64 z).
Definition u32_ovf (pr : profile) (z : Z) : out Z :=
  if (0 <=? z) && (z <? 2 ^ 32) then Val z
  else if overflow_checks pr then Panic else Val (z mod 2 ^ 32).
(** A usize arithmetic result *)
Definition usize_ovf (pr : profile) (z : Z) : out Z :=
  match usize_width pr with W32 => u32_ovf pr z | W64 => u64_ovf pr z end.
(** The shift amount check of [<<] on 64-bit integers. *)
Definition shift_amount (pr : profile) (n : Z) : out Z :=
  if n <? 64 then Val n
  else if overflow_checks pr then Panic else Val (n mod 64).
(** [1 << n] on [i64] and on [u64]. *)
Definition shl1_i64 (pr : profile) (n : Z) : out Z :=
  k <-! shift_amount pr n ;; Val (as_i64 (2 ^ k)).
Definition shl1_u64 (pr : profile) (n : Z) : out Z :=
  k <-! shift_amount pr n ;; Val (as_u64 (2 ^ k)).
(** [debug_assert!] *)
Definition debug_assert (pr : profile) (b : bool) : out unit :=
  if debug_assertions pr then (if b then Val tt else Panic) else Val tt.
Definition assert (b : bool) : out unit := if b then Val tt else Panic.

(** * Bytes and 32-byte arrays *)

Record bytes32 := B32 { b32 :> list byte; b32_len : Nat.eqb (length b32) 32 = true }.

Lemma bytes32_ext : forall a b : bytes32, b32 a = b32 b -> a = b.
Proof.
  intros [a pa] [b pb]; simpl; intros E; subst b.
  f_equal. apply (UIP_dec bool_dec).
Qed.

Lemma b32_length : forall a : bytes32, length (b32 a) = 32%nat.
Proof. intros [a pa]; simpl. apply Nat.eqb_eq; exact pa. Qed.

Fixpoint bytes_eqb (a b : list byte) : bool :=
  match a, b with
  | [], [] => true
  | x :: a', y :: b' => Byte.eqb x y && bytes_eqb a' b'
  | _, _ => false
  end.

Definition b32_eqb (a b : bytes32) : bool := bytes_eqb a b.

Lemma byte_eqb_spec : forall x y, Byte.eqb x y = true <-> x = y.
Proof.
  intros x y; split.
  - apply Byte.byte_dec_bl.
  - apply Byte.byte_dec_lb.
Qed.

Lemma bytes_eqb_eq : forall a b, bytes_eqb a b = true <-> a = b.
Proof.
  induction a as [|x a IH]; intros [|y b]; simpl; split; intros H; try discriminate; auto.
  - apply andb_true_iff in H as [H1 H2].
    apply byte_eqb_spec in H1. apply IH in H2. congruence.
  - injection H as -> ->. apply andb_true_iff; split.
    + apply byte_eqb_spec; reflexivity.
    + apply IH; reflexivity.
Qed.

Lemma b32_eqb_eq : forall a b, b32_eqb a b = true <-> a = b.
Proof.
  intros a b; unfold b32_eqb; rewrite bytes_eqb_eq; split; intros H.
  - apply bytes32_ext; exact H.
  - congruence.
Qed.

Lemma b32_eqb_refl : forall a, b32_eqb a a = true.
Proof. intros a; apply b32_eqb_eq; reflexivity. Qed.

Lemma b32_eqb_neq : forall a b, b32_eqb a b = false <-> a <> b.
Proof.
  intros a b; split; intros H.
  - intros E; apply b32_eqb_eq in E; congruence.
  - destruct (b32_eqb a b) eqn:E; auto. apply b32_eqb_eq in E; contradiction.
Qed.

Lemma b32_eq_dec : forall a b : bytes32, {a = b} + {a <> b}.
Proof.
  intros a b; destruct (b32_eqb a b) eqn:E.
  - left; apply b32_eqb_eq; exact E.
  - right; apply b32_eqb_neq; exact E.
Defined.

(** Build a [bytes32] from a list; the default is used only for lists that are
    not 32 bytes long, and every use in this development is on 32-byte lists. *)
Definition zero_list : list byte := repeat x00 32.
Definition zero32 : bytes32 := B32 zero_list eq_refl.
Definition mk32 (l : list byte) : bytes32 :=
  match bool_dec (Nat.eqb (length l) 32) true with
  | left p => B32 l p
  | right _ => zero32
  end.

Lemma mk32_list : forall l, length l = 32%nat -> b32 (mk32 l) = l.
Proof.
  intros l Hl; unfold mk32.
  destruct (bool_dec (Nat.eqb (length l) 32) true) as [p|n]; [reflexivity|].
  exfalso; apply n; apply Nat.eqb_eq; exact Hl.
Qed.

Definition Z_of_byte (b : byte) : Z := Z.of_N (Byte.to_N b).
Definition byte_of_Z (z : Z) : byte :=
  match Byte.of_N (Z.to_N (z mod 256)) with Some b => b | None => x00 end.
(** [u64::to_be_bytes] *)
Definition u64_to_be_bytes (z : Z) : list byte :=
  map (fun i => byte_of_Z (z / 2 ^ (8 * i))) [7; 6; 5; 4; 3; 2; 1; 0].
