(** SpecSumShare.v -- several sum trees on one storage: specification.  Independent of the model. *)
From Verif Require Import Base SpecBinary SpecSum SpecSumAny.
From Coq Require Import Arith.

(** The calls made on object number [i], and the answers to them. *)
Definition calls_on {A} (i : nat) (os : list (nat * A)) : list A := map snd (filter (fun x => Nat.eqb (fst x) i) os).
Definition answers_on {A B} (i : nat) (os : list (nat * A)) (rs : list B) : list B :=
  map snd (filter (fun x => Nat.eqb (fst (fst x)) i) (combine os rs)).

(** All byte strings hashed for the trees of sublists of the leaves of one object. *)
Definition object_inputs (H : list byte -> bytes32) (os : list (nat * sum_op)) : list (list byte) :=
  concat (map (fun i => sublist_inputs H (pushed (calls_on i os))) (nodup Nat.eq_dec (map fst os))).
