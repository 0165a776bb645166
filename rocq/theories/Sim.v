(** Sim.v -- running a computation on two related states. *)
From Verif Require Import Base Storage ModelCommon SpecAlike.

(** Same answer, related states. *)
Definition resp {A B C} (R : A -> B -> Prop) (f : M A C) (g : M B C) : Prop :=
  forall a b, R a b -> runs_alike R (f a) (g b).

Lemma resp_bind : forall A B C D (R : A -> B -> Prop) (f : M A C) g (f' : C -> M A D) g',
  resp R f g -> (forall c, resp R (f' c) (g' c)) -> resp R (bind f f') (bind g g').
Proof.
  intros A B C D R f g f' g' F F' a b Rab. specialize (F a b Rab). unfold runs_alike in *. unfold bind.
  destruct (f a) as [a' [c| |]], (g b) as [b' o]; cbn [fst snd] in F; destruct F as [Rs <-]; [apply F'; exact Rs|split; auto..].
Qed.
Lemma resp_ret : forall A B C (R : A -> B -> Prop) (c : C), resp R (ret c) (ret c).
Proof. intros A B C R c a b Rab. split; auto. Qed.
Lemma resp_panic : forall A B C (R : A -> B -> Prop), resp (C := C) R panic panic.
Proof. intros A B C R a b Rab. split; auto. Qed.
Lemma resp_lift : forall A B C (R : A -> B -> Prop) (o : out C), resp R (lift o) (lift o).
Proof. intros A B C R o a b Rab. split; auto. Qed.
Lemma resp_try : forall A B X C D (R : A -> B -> Prop) (f : M A (result X C)) g (f' : C -> M A (result X D)) g',
  resp R f g -> (forall c, resp R (f' c) (g' c)) -> resp R (bind_try f f') (bind_try g g').
Proof. intros. apply resp_bind; auto. intros [c|e]; [auto|apply resp_ret]. Qed.
Lemma resp_fuel : forall A B C (R : A -> B -> Prop), resp (C := C) R fuel_out fuel_out.
Proof. intros A B C R a b Rab. split; auto. Qed.
Lemma resp_get_state : forall A B C (R : A -> B -> Prop) (f : A -> M A C) g,
  (forall a b, R a b -> resp R (f a) (g b)) -> resp R (bind get_state f) (bind get_state g).
Proof. intros A B C R f g F a b Rab. exact (F a b Rab a b Rab). Qed.
