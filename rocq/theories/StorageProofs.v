(** StorageProofs.v -- StorageMap is a map; the faulty storage is lawful. *)
From Verif Require Import Base Storage.

Section SMap.
Context {K V : Type}.
Variable keqb : K -> K -> bool.
Hypothesis keqb_eq : forall a b, keqb a b = true <-> a = b.

Notation lookup := (@smap_lookup K V keqb).

Lemma keqb_refl : forall a, keqb a a = true.
Proof. intros a. apply keqb_eq. reflexivity. Qed.
Lemma keqb_neq : forall a b, a <> b -> keqb a b = false.
Proof. intros a b N. destruct (keqb a b) eqn:E; auto. apply keqb_eq in E. contradiction. Qed.

Lemma smap_lookup_erase : forall (m : smap) k k',
  lookup (smap_erase keqb m k) k' = if keqb k' k then None else lookup m k'.
Proof.
  induction m as [|[a v] m IH]; intros k k'; cbn.
  - destruct (keqb k' k); reflexivity.
  - destruct (keqb k a) eqn:Ea; cbn.
    + rewrite IH. destruct (keqb k' k) eqn:E; auto.
      apply keqb_eq in Ea. subst. rewrite E. reflexivity.
    + destruct (keqb k' a) eqn:E'; [|apply IH].
      apply keqb_eq in E'. subst. destruct (keqb a k) eqn:E''; auto.
      apply keqb_eq in E''. subst. rewrite keqb_refl in Ea. discriminate.
Qed.

Lemma smap_lookup_insert : forall (m : smap) k v k',
  lookup (fst (smap_insert keqb k v m)) k' = if keqb k' k then Some v else lookup m k'.
Proof.
  intros m k v k'. cbn. destruct (keqb k' k) eqn:E; auto.
  rewrite smap_lookup_erase, E. reflexivity.
Qed.

Lemma StorageMap_lawful : Lawful (@StorageMap K V keqb) lookup.
Proof.
  constructor.
  - intros k s s' r E. inversion E; subst. reflexivity.
  - intros k s s' v E. inversion E; subst. reflexivity.
  - intros k v s s' p E. inversion E; subst. split; [reflexivity|]. split.
    + cbn [smap_lookup]. rewrite keqb_refl. reflexivity.
    + intros k' N. cbn [smap_lookup]. rewrite (keqb_neq k' k N), smap_lookup_erase, (keqb_neq k' k N). reflexivity.
  - intros k v s s' e E. inversion E.
  - intros k s s' p E. inversion E; subst. split; [reflexivity|]. split.
    + rewrite smap_lookup_erase, keqb_refl. reflexivity.
    + intros k' N. rewrite smap_lookup_erase, (keqb_neq k' k N). reflexivity.
  - intros k s s' e E. inversion E.
Qed.

Lemma StorageMap_infallible : Infallible (@StorageMap K V keqb).
Proof.
  repeat split; intros; eexists; eexists; reflexivity.
Qed.
End SMap.

Section FaultyLaws.
Context {S K V E : Type} (st : StorageT S K V E) (view : S -> K -> option V).
Hypothesis L : Lawful st view.

Lemma Faulty_lawful : Lawful (Faulty st) (fun s => view (snd s)).
Proof.
  constructor; unfold Faulty; cbn [s_get s_insert s_remove]; unfold faulty_op.
  - intros k [sc s] s' r Eq k'. destruct sc as [|[] sc]; cbn in *;
      destruct (s_get st k s) as [s1 r1] eqn:G; inversion Eq; subst; cbn;
      try reflexivity; apply (law_get_view _ _ L _ _ _ _ G).
  - intros k [sc s] s' v Eq. destruct sc as [|[] sc]; cbn in *;
      try (destruct (s_get st k s) as [s1 [a|e]] eqn:G); inversion Eq; subst; cbn;
      apply (law_get_ok _ _ L _ _ _ _ G).
  - intros k v [sc s] s' p Eq. destruct sc as [|[] sc]; cbn in *;
      try (destruct (s_insert st k v s) as [s1 [a|e]] eqn:G); inversion Eq; subst; cbn;
      apply (law_insert_ok _ _ L _ _ _ _ _ G).
  - intros k v [sc s] s' e Eq. destruct sc as [|[] sc]; cbn in *;
      destruct (s_insert st k v s) as [s1 [a|e1]] eqn:G; inversion Eq; subst; cbn; auto;
      try (apply (law_insert_err _ _ L _ _ _ _ _ G)).
    right. destruct (law_insert_ok _ _ L _ _ _ _ _ G) as (_ & A & B). auto.
  - intros k [sc s] s' p Eq. destruct sc as [|[] sc]; cbn in *;
      try (destruct (s_remove st k s) as [s1 [a|e]] eqn:G); inversion Eq; subst; cbn;
      apply (law_remove_ok _ _ L _ _ _ _ G).
  - intros k [sc s] s' e Eq. destruct sc as [|[] sc]; cbn in *;
      destruct (s_remove st k s) as [s1 [a|e1]] eqn:G; inversion Eq; subst; cbn; auto;
      try (apply (law_remove_err _ _ L _ _ _ _ G)).
    right. destruct (law_remove_ok _ _ L _ _ _ _ G) as (_ & A & B). auto.
Qed.
End FaultyLaws.
