(** WitnessSparse.v -- concrete histories of the sparse tree with SHA-256, and counterexamples. *)
From Verif Require Import Base Sha256 Storage ModelText ModelCommon ModelSparse SpecBits SpecBinary SpecSparse RunsSparse
  StorageProofs BindingProofs SparseTheorems WitnessSum.

Definition sview : SScratch -> bytes32 -> option SPrimitive := smap_lookup b32_eqb.
Lemma SStorageMap_lawful : Lawful SStorageMap sview.
Proof. apply StorageMap_lawful. apply b32_eqb_eq. Qed.
Lemma SStorageMap_infallible : Infallible SStorageMap.
Proof. apply StorageMap_infallible. Qed.
Definition FaultySMap : StorageT (faulty_state (S := SScratch)) bytes32 SPrimitive (option Empty_set) :=
  Faulty SStorageMap.
Definition fsview (s : faulty_state (S := SScratch)) : bytes32 -> option SPrimitive := sview (snd s).
Lemma FaultySMap_lawful : Lawful FaultySMap fsview.
Proof. exact (Faulty_lawful _ _ SStorageMap_lawful). Qed.

(** * Deciding the hypotheses *)
(** Digests are listed in a table that is checked once; roots are then computed from the table. *)
Definition table : Type := list (list byte * bytes32).
Definition tab (T : table) (x : list byte) : bytes32 :=
  match find (fun p => bytes_eqb x (fst p)) T with Some p => snd p | None => zero32 end.
Definition known (T : table) (x : list byte) : bool := existsb (fun p => bytes_eqb x (fst p)) T.
Definition table_okb (T : table) : bool :=
  forallb (fun p => b32_eqb (sha256 (fst p)) (snd p)) T &&
  forallb (fun p => negb (b32_eqb (snd p) zero32)) T &&
  forallb (fun p => forallb (fun q => if b32_eqb (snd p) (snd q) then bytes_eqb (fst p) (fst q) else true) T) T.
Definition listed (T : table) (ks : list bytes32) (ms : list kvmap) : bool :=
  forallb (fun p => forallb (fun k => negb (b32_eqb (snd p) k)) ks) T &&
  forallb (fun m => forallb (fun e => known T (snd e)) m && forallb (known T) (kv_inputs (tab T) m)) ms.
Fixpoint table_add (xs : list (list byte)) (T : table) : table :=
  match xs with [] => T | x :: xs' => table_add xs' (if known T x then T else (x, sha256 x) :: T) end.
Definition table_for (ms : list kvmap) (T : table) : table :=
  fold_left (fun T m => table_add (map snd m ++ kv_inputs sha256 m) T) ms T.

Lemma negb_neq : forall a b, negb (b32_eqb a b) = true -> a <> b.
Proof. intros a b E Q. subst. rewrite b32_eqb_refl in E. discriminate. Qed.
Lemma smt_same : forall H H' n d l, (forall x, In x (smt_inputs H' n d l) -> H' x = H x) ->
  smt H' n d l = smt H n d l /\ smt_inputs H' n d l = smt_inputs H n d l.
Proof.
  intros H H' n. induction n as [|n IH]; intros d [|[k h] [|e l]] A; cbn [smt smt_inputs] in *; auto.
  - split; [|reflexivity]. apply A. left. reflexivity.
  - split; [|reflexivity]. apply A. left. reflexivity.
  - destruct (IH (S d) (with_bit d false ((k, h) :: e :: l))) as [L1 L2].
    { intros x Ix. apply A. right. apply in_or_app. left. exact Ix. }
    destruct (IH (S d) (with_bit d true ((k, h) :: e :: l))) as [R1 R2].
    { intros x Ix. apply A. right. apply in_or_app. right. exact Ix. }
    rewrite <- L1, <- R1, <- L2, <- R2. split; [apply A; left; reflexivity|reflexivity].
Qed.
Lemma listed_ok : forall T ks ms, table_okb T = true -> listed T ks ms = true -> hash_ok sha256 ks ms.
Proof.
  intros T ks ms E L. unfold table_okb in E. apply andb_prop in E. destruct E as [E E3]. apply andb_prop in E. destruct E as [E1 E2].
  unfold listed in L. apply andb_prop in L. destruct L as [L1 L2]. rewrite forallb_forall in E1, E2, E3, L1, L2.
  assert (K : forall x, known T x = true -> In (x, sha256 x) T).
  { intros x Q. apply existsb_exists in Q. destruct Q as ([y h] & I & Q). apply bytes_eqb_eq in Q. cbn in Q. subst y.
    specialize (E1 _ I). apply b32_eqb_eq in E1. cbn in E1. rewrite E1. exact I. }
  assert (G : forall x, known T x = true -> tab T x = sha256 x).
  { intros x Q. unfold tab. apply existsb_exists in Q. destruct Q as (p0 & I0 & Q0).
    destruct (find _ T) as [p|] eqn:F.
    - apply find_some in F. destruct F as [I F]. apply bytes_eqb_eq in F. subst x. symmetry. apply b32_eqb_eq. exact (E1 p I).
    - rewrite (find_none _ _ F p0 I0) in Q0. discriminate. }
  assert (M : forall m, In m ms -> kv_inputs (tab T) m = kv_inputs sha256 m).
  { intros m Im. specialize (L2 m Im). apply andb_prop in L2. destruct L2 as [D N]. rewrite forallb_forall in D, N. unfold kv_inputs in *.
    replace (digests sha256 m) with (digests (tab T) m).
    - apply smt_same. intros x Ix. apply G. exact (N x Ix).
    - unfold digests. apply map_ext_in. intros e Ie. rewrite (G (snd e) (D e Ie)). reflexivity. }
  assert (X : forall x, In x (concat (map (kv_inputs sha256) ms)) -> In (x, sha256 x) T).
  { intros x Ix. apply in_concat in Ix. destruct Ix as (l & Il & Ix). apply in_map_iff in Il. destruct Il as (m & <- & Im).
    rewrite <- (M m Im) in Ix. specialize (L2 m Im). apply andb_prop in L2. destruct L2 as [_ N]. rewrite forallb_forall in N. exact (K x (N x Ix)). }
  split; [|split; [|split]].
  - intros (x & y & Ix & Iy & Nxy & Q). specialize (E3 _ (X x Ix)). rewrite forallb_forall in E3. specialize (E3 _ (X y Iy)). cbn [fst snd] in E3.
    rewrite Q, b32_eqb_refl in E3. apply bytes_eqb_eq in E3. contradiction.
  - intros x Ix. apply negb_neq. exact (E2 _ (X x Ix)).
  - intros k x Ik Ix. apply negb_neq. specialize (L1 _ (X x Ix)). rewrite forallb_forall in L1. exact (L1 k Ik).
  - intros m e Im Ie. specialize (L2 m Im). apply andb_prop in L2. destruct L2 as [D _]. rewrite forallb_forall in D.
    apply negb_neq. exact (E2 _ (K _ (D e Ie))).
Qed.

Fixpoint kv_eqb (a b : kvmap) : bool :=
  match a, b with
  | [], [] => true
  | (k, v) :: a', (k', v') :: b' => b32_eqb k k' && bytes_eqb v v' && kv_eqb a' b'
  | _, _ => false
  end.
Lemma kv_eqb_eq : forall a b, kv_eqb a b = true -> a = b.
Proof.
  induction a as [|[k v] a IH]; intros [|[k' v'] b] E; try discriminate; auto. cbn [kv_eqb] in E.
  apply andb_prop in E. destruct E as [E E3]. apply andb_prop in E. destruct E as [E1 E2].
  apply b32_eqb_eq in E1. apply bytes_eqb_eq in E2. rewrite E1, E2, (IH b E3). reflexivity.
Qed.
(** Part of a larger set known to be all right. *)
Definition within (ks ks' : list bytes32) (ms ms' : list kvmap) : bool :=
  forallb (fun k => existsb (b32_eqb k) ks) ks' && forallb (fun m => existsb (kv_eqb m) ms) ms'.
Lemma within_ok : forall ks ks' ms ms', hash_ok sha256 ks ms -> within ks ks' ms ms' = true -> hash_ok sha256 ks' ms'.
Proof.
  intros ks ks' ms ms' Ok0 E. unfold within in E. apply andb_prop in E. destruct E as [E1 E2]. rewrite forallb_forall in E1, E2.
  revert Ok0. apply hash_ok_incl.
  - intros k Ik. specialize (E1 k Ik). apply existsb_exists in E1. destruct E1 as (k' & Ik' & Q). apply b32_eqb_eq in Q. subst. exact Ik'.
  - intros m Im. specialize (E2 m Im). apply existsb_exists in E2. destruct E2 as (m' & Im' & Q). apply kv_eqb_eq in Q. subst. exact Im'.
Qed.

Fixpoint cleanb (m : kvmap) (w : list bytes32) (os : list sp_op) : bool :=
  match os with
  | [] => true
  | o :: os' =>
      match o with
      | Update _ (_ :: _) => true
      | Update k [] | Delete k => existsb (b32_eqb k) (keys m) || negb (existsb (b32_eqb k) w)
      end && cleanb (apply_op m o) (op_writes o ++ w) os'
  end.
Lemma inb : forall k l, existsb (b32_eqb k) l = true <-> In k l.
Proof.
  intros k l. split.
  - intros E. apply existsb_exists in E. destruct E as (k' & I & Q). apply b32_eqb_eq in Q. subst. exact I.
  - intros I. apply existsb_exists. exists k. split; [exact I|apply b32_eqb_refl].
Qed.
Lemma cleanb_ok : forall os m w, cleanb m w os = true -> clean m w os.
Proof.
  induction os as [|o os IH]; intros m w E; cbn [cleanb clean] in *; auto.
  apply andb_prop in E. destruct E as [E1 E2]. split; [|apply IH; exact E2].
  assert (Q : forall k, existsb (b32_eqb k) (keys m) || negb (existsb (b32_eqb k) w) = true -> In k (keys m) \/ ~ In k w).
  { intros k E. apply orb_prop in E. destruct E as [E|E]; [left; apply inb; exact E|right]. intros I. apply inb in I. rewrite I in E. discriminate. }
  destruct o as [k [|b v]|k]; auto.
Qed.

(** A run with a check on its result. *)
Lemma ran : forall A B (x : A * out (result B unit)) (check : A -> bool),
  match x with (t, Val (Ok tt)) => check t | _ => false end = true ->
  exists t, x = (t, Val (Ok tt)) /\ check t = true.
Proof. intros A B [t [[[]|e]| |]] check E; try discriminate. exists t. auto. Qed.

(** * The histories *)
Definition key (b : byte) : bytes32 := mk32 (b :: repeat x00 31).
Definition kA : bytes32 := Eval vm_compute in key x10.
Definition kB : bytes32 := Eval vm_compute in key x90.
Definition kC : bytes32 := Eval vm_compute in key x30.
Definition kD : bytes32 := Eval vm_compute in key xf0.
Definition va : list byte := [x61].
Definition vb : list byte := [x62].
Definition vc : list byte := [x63].
Definition vd : list byte := [x64].

Definition hist : list sp_op := [Update kA va; Update kB vb; Update kC vc; Delete kB; Update kA vd].
Definition hist2 : list sp_op := [Update kB vb; Update kC vc; Update kA vd; Update kB []; Delete kD].

Definition hist_maps : list kvmap :=
  maps [] (hist ++ [Update kD va; Update kD vb]) ++ maps [] hist2 ++ [[(kB, vb); (kA, va); (kC, vc)]; mset kC vc (mset kB vb [])].
Definition hist_keys : list bytes32 := [kA; kB; kC; kD].
(** All subsets of three entries, and some more maps of the histories here and in other files. *)
Definition fail_outcomes : list kvmap :=
  [[]; [(kA, va)]; [(kB, vb)]; [(kC, vc)]; [(kB, vb); (kA, va)]; [(kC, vc); (kA, va)]; [(kC, vc); (kB, vb)]; [(kC, vc); (kB, vb); (kA, va)]].
Definition more_maps : list kvmap :=
  [[(kA, vc)]; [(kA, vc); (kB, vb)]; [(kB, va); (kC, vc)]; [(kD, va); (kC, vc); (kB, vb); (kA, va)]].
Definition digests_used : table := Eval vm_compute in table_for (hist_maps ++ fail_outcomes ++ more_maps) [].
Lemma digests_used_ok : table_okb digests_used = true.
Proof. vm_compute. reflexivity. Qed.
Lemma hist_ok : hash_ok sha256 hist_keys hist_maps.
Proof. apply (listed_ok _ _ _ digests_used_ok). vm_compute. reflexivity. Qed.

Lemma C29_witness :
  Lawful SStorageMap sview /\ Infallible SStorageMap /\ clean [] [] hist /\
  hash_ok sha256 (map op_key hist) (maps [] hist) /\ final hist = [(kA, vd); (kC, vc)] /\
  match sp_run sha256 Debug SStorageMap hist (sp_new smap_new) with
  | (t, Val (Ok tt)) => b32_eqb (sp_root sha256 t) (kv_root sha256 [(kA, vd); (kC, vc)])
  | _ => false
  end = true.
Proof.
  split; [exact SStorageMap_lawful|]. split; [exact SStorageMap_infallible|]. split; [apply cleanb_ok; reflexivity|].
  split; [apply (within_ok _ _ _ _ hist_ok); reflexivity|]. split; [apply kv_eqb_eq; vm_compute; reflexivity|].
  vm_compute. reflexivity.
Qed.

Local Notation run os t := (sp_run sha256 Debug SStorageMap os t).
Local Notation start := (sp_new smap_new).
Local Notation frun os script := (sp_run_all sha256 Debug FaultySMap os (sp_new (script, smap_new))).

(** * Stale deletes *)
Definition twice : list sp_op := [Update kA va; Update kB vb; Delete kB; Delete kB].
Definition twice_maps : list kvmap := [[]; [(kA, va)]; [(kB, vb); (kA, va)]].
Lemma twice_ok : hash_ok sha256 [kA; kB] twice_maps.
Proof. apply (within_ok _ _ _ _ hist_ok). reflexivity. Qed.

Lemma C30_refuted_lemma : exists os t, sp_run sha256 Debug SStorageMap os (sp_new smap_new) = (t, Val (Ok tt)) /\
  hash_ok sha256 (map op_key os) (maps [] os) /\ sp_root sha256 t <> kv_root sha256 (final os).
Proof.
  exists twice. destruct (ran _ _ (run twice start) (fun t => negb (b32_eqb (sp_root sha256 t) (kv_root sha256 (final twice))))) as (t & R & Q).
  - vm_compute. reflexivity.
  - exists t. split; [exact R|]. split; [apply (within_ok _ _ _ _ twice_ok); reflexivity|]. apply negb_neq. exact Q.
Qed.
Lemma C30_witness : ~ In zero32 (map op_key twice) /\ hash_ok sha256 (map op_key twice) (real_maps [] [] twice) /\
  final twice = [(kA, va)] /\ real_final [] [] twice = [] /\
  match sp_run sha256 Debug SStorageMap twice (sp_new smap_new) with
  | (t, Val (Ok tt)) => b32_eqb (sp_root sha256 t) zero32 | _ => false end = true.
Proof.
  split. { intros C. apply inb in C. discriminate C. }
  split; [apply (within_ok _ _ _ _ twice_ok); vm_compute; reflexivity|]. split; [apply kv_eqb_eq; vm_compute; reflexivity|].
  split; [apply kv_eqb_eq; vm_compute; reflexivity|]. vm_compute. reflexivity.
Qed.

Lemma C34_refuted_lemma : exists os k t t' t'', sp_run sha256 Debug SStorageMap os (sp_new smap_new) = (t, Val (Ok tt)) /\
  sp_delete sha256 Debug SStorageMap k t = (t', Val (Ok tt)) /\ sp_delete sha256 Debug SStorageMap k t' = (t'', Val (Ok tt)) /\
  sp_root sha256 t' <> sp_root sha256 t''.
Proof.
  exists [Update kA va; Update kB vb], kB.
  destruct (ran _ _ (run [Update kA va; Update kB vb] start) (fun t =>
    match sp_delete sha256 Debug SStorageMap kB t with
    | (t', Val (Ok tt)) => match sp_delete sha256 Debug SStorageMap kB t' with
                           | (t'', Val (Ok tt)) => negb (b32_eqb (sp_root sha256 t') (sp_root sha256 t''))
                           | _ => false end
    | _ => false end)) as (t & R & Q); [vm_compute; reflexivity|].
  exists t. destruct (sp_delete sha256 Debug SStorageMap kB t) as [t' [[[]|e]| |]] eqn:D1; try discriminate Q.
  exists t'. destruct (sp_delete sha256 Debug SStorageMap kB t') as [t'' [[[]|e]| |]] eqn:D2; try discriminate Q.
  exists t''. split; [exact R|]. split; [reflexivity|]. split; [reflexivity|]. apply negb_neq. exact Q.
Qed.
Lemma C34_witness : let os := [Update kA va; Update kB vb] in
  clean [] [] (os ++ [Delete kB]) /\ In kB (keys (final os)) /\
  hash_ok sha256 (map op_key (os ++ [Delete kB])) (maps [] (os ++ [Delete kB]) ++ [[]]) /\
  landing 256 0 kB (final (os ++ [Delete kB])) = Some kA.
Proof.
  split; [apply cleanb_ok; reflexivity|]. split; [left; reflexivity|].
  split; [apply (within_ok _ _ _ _ twice_ok); vm_compute; reflexivity|]. vm_compute. reflexivity.
Qed.

(** * Loading *)
Lemma C37_refuted_lemma :
  (exists os t s', sp_run sha256 Debug SStorageMap os (sp_new smap_new) = (t, Val (Ok tt)) /\
    sp_load SStorageMap (sp_root sha256 t) (sp_storage t) = (s', Val (Err (SLoadError (hex_encode (b32 (sp_root sha256 t))))))) /\
  (exists os t r s' t2, sp_run sha256 Debug SStorageMap os (sp_new smap_new) = (t, Val (Ok tt)) /\
    sp_load SStorageMap r (sp_storage t) = (s', Val (Ok t2)) /\ sp_root sha256 t2 <> r).
Proof.
  split.
  - exists [], (sp_new smap_new), smap_new. split; reflexivity.
  - exists [Update kA va]. destruct (ran _ _ (run [Update kA va] start) (fun t =>
      match sp_load SStorageMap kA (sp_storage t) with
      | (_, Val (Ok t2)) => negb (b32_eqb (sp_root sha256 t2) kA) | _ => false end)) as (t & R & Q); [vm_compute; reflexivity|].
    exists t, kA. destruct (sp_load SStorageMap kA (sp_storage t)) as [s' [[t2|e]| |]] eqn:L; try discriminate Q.
    exists s', t2. split; [exact R|]. split; [reflexivity|]. apply negb_neq. exact Q.
Qed.
Lemma C37_witness : clean [] [] hist /\ final hist <> [] /\ hash_ok sha256 (map op_key hist) (maps [] hist) /\
  match sp_run sha256 Debug SStorageMap hist (sp_new smap_new) with
  | (t, Val (Ok tt)) => match sp_load SStorageMap (sp_root sha256 t) (sp_storage t) with
                        | (_, Val (Ok t2)) => b32_eqb (sp_root sha256 t2) (sp_root sha256 t) | _ => false end
  | _ => false end = true.
Proof.
  split; [apply cleanb_ok; reflexivity|]. split; [intros C; discriminate C|].
  split; [apply (within_ok _ _ _ _ hist_ok); reflexivity|]. vm_compute. reflexivity.
Qed.

Lemma C38_witness : let us1 := [Update kA va; Update kB vb] in let us2 := [Update kC vc] in let us3 := [Update kB vb] in
  clean [] [] [] /\ (forall o, In o (us1 ++ us2 ++ us3) -> is_update o) /\ final ([] ++ us1) <> [] /\
  hash_ok sha256 (map op_key ([] ++ us1 ++ us2 ++ us3)) (maps [] ([] ++ us1 ++ us2) ++ maps (final ([] ++ us1)) us3).
Proof.
  split; [exact Logic.I|]. split; [intros o [<-|[<-|[<-|[<-|[]]]]]; exact Logic.I|]. split; [intros C; discriminate C|].
  apply (within_ok _ _ _ _ hist_ok). vm_compute. reflexivity.
Qed.

Lemma C39_refuted_lemma : exists os k t t' s', sp_run sha256 Debug SStorageMap os (sp_new smap_new) = (t, Val (Ok tt)) /\
  sp_delete sha256 Debug SStorageMap k t = (t', Val (Ok tt)) /\
  sp_load SStorageMap (sp_root sha256 t) (sp_storage t') = (s', Val (Err (SLoadError (hex_encode (b32 (sp_root sha256 t)))))).
Proof.
  exists [Update kA va; Update kB vb], kB.
  assert (Cl : clean [] [] [Update kA va; Update kB vb]) by (apply cleanb_ok; reflexivity).
  destruct (C39_lemma sha256 Debug SStorageMap sview SStorageMap_lawful SStorageMap_infallible _ smap_new kB (fun k => eq_refl) Cl) as (t & t' & s' & Q).
  - left. reflexivity.
  - apply (within_ok _ _ _ _ twice_ok). vm_compute. reflexivity.
  - exists t, t', s'. exact Q.
Qed.
Lemma C39_witness : let os := [Update kA va; Update kB vb] in
  clean [] [] os /\ In kB (keys (final os)) /\ hash_ok sha256 (map op_key os) (maps [] (os ++ [Delete kB])).
Proof.
  split; [apply cleanb_ok; reflexivity|]. split; [left; reflexivity|]. apply (within_ok _ _ _ _ twice_ok). vm_compute. reflexivity.
Qed.

(** * Failures *)
(** A failing update on a storage that works again later. *)
Definition fail_updates : list sp_op := [Update kA va; Update kB vb; Update kC vc].
Definition fail_script : list fault := [NoFault; NoFault; NoFault; NoFault; Fault].
Lemma C41_witness : clean [] [] [] /\ (forall o, In o fail_updates -> is_update o) /\
  hash_ok sha256 (map op_key ([] ++ fail_updates)) (maps [] [] ++ outcomes (final []) fail_updates) /\
  match frun fail_updates fail_script with
  | (t, Val [Ok tt; Err (SStorageError None); Ok tt]) => b32_eqb (sp_root sha256 t) (kv_root sha256 [(kC, vc); (kA, va)])
  | _ => false end = true.
Proof.
  split; [exact Logic.I|]. split; [intros o [<-|[<-|[<-|[]]]]; exact Logic.I|].
  split; [|vm_compute; reflexivity].
  apply (listed_ok _ _ _ digests_used_ok). vm_compute. reflexivity.
Qed.

(** The second removal of a delete fails; the leaf is gone, and a later update cannot read it. *)
Definition fail_delete : list sp_op := [Update kA va; Update kB vb; Delete kB; Update kA vc].
Definition fail_delete_script : list fault := repeat NoFault 9 ++ [Fault].
Lemma C42_refuted_lemma : exists os script t h,
  sp_run_all sha256 Debug FaultySMap os (sp_new (script, smap_new)) =
    (t, Val [Ok tt; Ok tt; Err (SStorageError None); Err (SChildErr (ChildNotFound h))]).
Proof.
  exists fail_delete, fail_delete_script.
  assert (F : match snd (frun fail_delete fail_delete_script) with
    Val [Ok tt; Ok tt; Err (SStorageError None); Err (SChildErr (ChildNotFound _))] => true | _ => false end = true)
    by (vm_compute; reflexivity).
  destruct (frun fail_delete fail_delete_script) as [t o]. cbn [snd] in F.
  destruct o as [rs| |]; try discriminate F.
  destruct rs as [|[[]|] rs]; try discriminate F. destruct rs as [|[[]|] rs]; try discriminate F.
  destruct rs as [|[|e] rs]; try discriminate F. destruct e as [|[[]|]| |]; try discriminate F.
  destruct rs as [|[|e] rs]; try discriminate F. destruct e as [| | |c]; try discriminate F. destruct c; try discriminate F.
  destruct rs; try discriminate F. eexists _, _. reflexivity.
Qed.
Lemma C42_witness : clean_flags [] [] (combine fail_delete [true; true; false; false]) /\
  hash_ok sha256 (map op_key fail_delete) (attempts [] (combine fail_delete [true; true; false; false])) /\
  match frun fail_delete fail_delete_script with
  | (t, Val [Ok tt; Ok tt; Err _; Err _]) => b32_eqb (sp_root sha256 t) (kv_root sha256 [(kB, vb); (kA, va)])
  | _ => false end = true.
Proof.
  split; [cbn; tauto|]. split; [apply (listed_ok _ _ _ digests_used_ok); vm_compute; reflexivity|]. vm_compute. reflexivity.
Qed.

(** A failed update leaves the user entry behind; deleting its key then removes another one. *)
Definition ghost : list sp_op := [Update kA va; Update kB vb; Delete kB].
Lemma C59_refuted_lemma : exists k v k' v' script t t' t'',
  sp_run_all sha256 Debug FaultySMap [Update k v] (sp_new (script, smap_new)) = (t, Val [Ok tt]) /\
  sp_update sha256 Debug FaultySMap k' v' t = (t', Val (Err (SStorageError None))) /\
  sp_delete sha256 Debug FaultySMap k' t' = (t'', Val (Ok tt)) /\
  sp_root sha256 t <> zero32 /\ sp_root sha256 t'' = zero32.
Proof.
  exists kA, va, kB, vb, fail_script.
  destruct (sp_run_all sha256 Debug FaultySMap [Update kA va] (sp_new (fail_script, smap_new))) as [t o] eqn:E. exists t.
  set (chk := fun t => match sp_update sha256 Debug FaultySMap kB vb t with
    | (t', Val (Err (SStorageError None))) => match sp_delete sha256 Debug FaultySMap kB t' with
        | (t'', Val (Ok tt)) => negb (b32_eqb (sp_root sha256 t) zero32) && b32_eqb (sp_root sha256 t'') zero32 | _ => false end
    | _ => false end).
  assert (F : match sp_run_all sha256 Debug FaultySMap [Update kA va] (sp_new (fail_script, smap_new)) with
     (t, Val [Ok tt]) => chk t | _ => false end = true) by (vm_compute; reflexivity).
  rewrite E in F. destruct o as [[|[[]|e] [|]]| |]; try discriminate F. unfold chk in F. clear E chk.
  destruct (sp_update sha256 Debug FaultySMap kB vb t) as [t' [[[]|[|[]| |]]| |]] eqn:U; try discriminate F.
  destruct (sp_delete sha256 Debug FaultySMap kB t') as [t'' [[[]|e]| |]] eqn:D; try discriminate F.
  apply andb_prop in F. destruct F as [F1 F2]. exists t', t''. split; [reflexivity|]. split; [reflexivity|]. split; [exact D|].
  split; [apply negb_neq; exact F1|apply b32_eqb_eq; exact F2].
Qed.

(** * Keys that are node hashes *)
Definition hB : bytes32 := Eval vm_compute in sha256 (smt_leaf_input kB (sha256 vb)).
Definition hA : bytes32 := Eval vm_compute in sha256 (smt_leaf_input kA (sha256 va)).
Definition mixed : list sp_op := [Update kA va; Update hA vb; Delete hA].
Definition mixed_panic : list sp_op := [Update kA va; Update hA vb; Update kC vc].
Lemma C45_refuted_lemma :
  (exists os t, clean [] [] os /\ ~ has_collision sha256 (concat (map (kv_inputs sha256) (maps [] os))) /\
    sp_run sha256 Debug SStorageMap os (sp_new smap_new) = (t, Val (Ok tt)) /\ sp_root sha256 t <> kv_root sha256 (final os)) /\
  (exists os t, (forall o, In o os -> is_update o) /\ sp_run sha256 Debug SStorageMap os (sp_new smap_new) = (t, Panic)).
Proof.
  split.
  - exists mixed. destruct (ran _ _ (run mixed start) (fun t => negb (b32_eqb (sp_root sha256 t) (kv_root sha256 (final mixed))))) as (t & R & Q).
    + vm_compute. reflexivity.
    + exists t. split; [apply cleanb_ok; reflexivity|]. split; [apply no_collisions_ok; vm_compute; reflexivity|].
      split; [exact R|]. apply negb_neq. exact Q.
  - exists mixed_panic. assert (F : match snd (run mixed_panic start) with Panic => true | _ => false end = true) by (vm_compute; reflexivity).
    destruct (run mixed_panic start) as [t o] eqn:E. cbn [snd] in F. exists t.
    split; [intros o' [<-|[<-|[<-|[]]]]; exact Logic.I|]. destruct o; try discriminate F. reflexivity.
Qed.

(** * A second kind of storage: functions *)
Definition FunMap : StorageT (bytes32 -> option SPrimitive) bytes32 SPrimitive Empty_set :=
  {| s_get := fun k f => (f, Ok (f k));
     s_insert := fun k v f => ((fun x => if b32_eqb x k then Some v else f x), Ok (f k));
     s_remove := fun k f => ((fun x => if b32_eqb x k then None else f x), Ok (f k)) |}.
Definition fview (f : bytes32 -> option SPrimitive) : bytes32 -> option SPrimitive := f.
Lemma neq_eqb : forall a b, a <> b -> b32_eqb a b = false.
Proof. intros a b N. destruct (b32_eqb a b) eqn:Q; [apply b32_eqb_eq in Q; contradiction|reflexivity]. Qed.
Lemma FunMap_lawful : Lawful FunMap fview.
Proof.
  split; cbn; intros.
  - injection H as <- _. reflexivity.
  - injection H as _ <-. reflexivity.
  - injection H as <- <-. split; [reflexivity|]. unfold fview. rewrite b32_eqb_refl. split; [reflexivity|]. intros k' N. rewrite (neq_eqb _ _ N). reflexivity.
  - discriminate H.
  - injection H as <- <-. split; [reflexivity|]. unfold fview. rewrite b32_eqb_refl. split; [reflexivity|]. intros k' N. rewrite (neq_eqb _ _ N). reflexivity.
  - discriminate H.
Qed.
Lemma FunMap_infallible : Infallible FunMap.
Proof. split; [|split]; cbn; eauto. Qed.

Lemma C31_witness : Lawful SStorageMap sview /\ Lawful FunMap fview /\ Infallible SStorageMap /\ Infallible FunMap /\
  clean [] [] hist /\ clean [] [] hist2 /\ hash_ok sha256 (map op_key hist) (maps [] hist) /\ hash_ok sha256 (map op_key hist2) (maps [] hist2) /\
  forall k, lookup k (final hist) = lookup k (final hist2).
Proof.
  split; [exact SStorageMap_lawful|]. split; [exact FunMap_lawful|]. split; [exact SStorageMap_infallible|]. split; [exact FunMap_infallible|].
  split; [apply cleanb_ok; reflexivity|]. split; [apply cleanb_ok; reflexivity|].
  split; [apply (within_ok _ _ _ _ hist_ok); reflexivity|]. split; [apply (within_ok _ _ _ _ hist_ok); reflexivity|].
  intros k. replace (final hist) with [(kA, vd); (kC, vc)] by (symmetry; apply kv_eqb_eq; vm_compute; reflexivity).
  replace (final hist2) with [(kA, vd); (kC, vc)] by (symmetry; apply kv_eqb_eq; vm_compute; reflexivity). reflexivity.
Qed.
Lemma C32_witness : clean [] [] hist /\
  hash_ok sha256 (kD :: map op_key hist) (maps [] (hist ++ [Update kD va; Update kD vb])) /\
  hash_ok sha256 (kD :: map op_key hist) (maps [] (hist ++ [Update kD va])) /\ In kD (keys (final (hist ++ [Update kD va]))).
Proof.
  split; [apply cleanb_ok; reflexivity|]. split; [apply (within_ok _ _ _ _ hist_ok); reflexivity|].
  split; [apply (within_ok _ _ _ _ hist_ok); reflexivity|]. left. reflexivity.
Qed.
Lemma C33_witness : clean [] [] hist /\ ~ In kD (keys (final hist)) /\
  hash_ok sha256 (kD :: map op_key hist) (maps [] (hist ++ [Update kD va])) /\ In kB (written hist) /\ ~ In kB (keys (final hist)).
Proof.
  split; [apply cleanb_ok; reflexivity|]. split; [intros C; apply inb in C; vm_compute in C; discriminate C|].
  split; [apply (within_ok _ _ _ _ hist_ok); reflexivity|].
  split; [apply inb; vm_compute; reflexivity|]. intros C; apply inb in C; vm_compute in C; discriminate C.
Qed.
Lemma C35_witness : clean [] [] hist /\ ~ In kD (written hist) /\ hash_ok sha256 (kD :: map op_key hist) (maps [] hist) /\
  exists t, sp_run sha256 Debug SStorageMap hist (sp_new smap_new) = (t, Val (Ok tt)).
Proof.
  split; [apply cleanb_ok; reflexivity|]. split; [intros C; apply inb in C; vm_compute in C; discriminate C|].
  split; [apply (within_ok _ _ _ _ hist_ok); reflexivity|].
  destruct (ran _ _ (run hist start) (fun _ => true)) as (t & R & _); [vm_compute; reflexivity|]. exists t. exact R.
Qed.
(** A delete that fails after it has changed the storage. *)
Lemma C40_witness : exists t t', sp_run_all sha256 Debug FaultySMap [Update kA va; Update kB vb] (sp_new (fail_delete_script, smap_new)) = (t, Val [Ok tt; Ok tt]) /\
  sp_delete sha256 Debug FaultySMap kB t = (t', Val (Err (SStorageError None))) /\
  fsview (sp_storage t) hB <> fsview (sp_storage t') hB.
Proof.
  set (chk := fun t => match sp_delete sha256 Debug FaultySMap kB t with
    | (t', Val (Err (SStorageError None))) =>
        match fsview (sp_storage t) hB, fsview (sp_storage t') hB with Some _, None => true | _, _ => false end
    | _ => false end).
  assert (F : match frun [Update kA va; Update kB vb] fail_delete_script with
     (t, Val [Ok tt; Ok tt]) => chk t | _ => false end = true) by (vm_compute; reflexivity).
  destruct (frun [Update kA va; Update kB vb] fail_delete_script) as [t o].
  destruct o as [[|[[]|e] [|[[]|e'] [|]]]| |]; try discriminate F. unfold chk in F. clear chk.
  exists t. destruct (sp_delete sha256 Debug FaultySMap kB t) as [t' [[[]|[|[]| |]]| |]]; try discriminate F.
  exists t'. split; [reflexivity|]. split; [reflexivity|].
  destruct (fsview (sp_storage t) hB); [|discriminate F].
  destruct (fsview (sp_storage t') hB); [discriminate F|]. discriminate.
Qed.
Lemma C43_witness : NoDup (keys [(kA, vd); (kC, vc)]) /\ NoDup (keys [(kC, vc); (kA, vd)]) /\
  kv_root sha256 [(kA, vd); (kC, vc)] = kv_root sha256 [(kC, vc); (kA, vd)] /\
  kv_root sha256 [(kA, vd); (kC, vc)] <> kv_root sha256 [(kA, va); (kC, vc)].
Proof.
  split; [repeat constructor; intros [C|[]] || intros []; discriminate C|].
  split; [repeat constructor; intros [C|[]] || intros []; discriminate C|].
  split; [apply b32_eqb_eq; vm_compute; reflexivity|]. apply negb_neq. vm_compute. reflexivity.
Qed.
(** A storage in which the root node is its own child: the walk stops after 257 nodes. *)
Definition loopn : SNode := Build_SNode 256 PNode kA kA.
Definition loop_storage : SScratch := [(kA, (256, x01, kA, kA))].
Lemma C44_witness :
  match path_set Debug SStorageMap loopn (snode_create_leaf sha256 kB va) loop_storage with
  | (_, Val (Ok (ps, ss))) => (Z.of_nat (length ps) =? 257) && (Z.of_nat (length ss) =? 256) | _ => false end = true.
Proof. vm_compute. reflexivity. Qed.

(** One entry missing. *)
Definition small : list sp_op := [Update kA va; Update kB vb; Update kC vc].
Definition update_without (h : bytes32) (check : SpTree SScratch -> result (SError Empty_set) unit -> bool) : bool :=
  match run small start with
  | (t, Val (Ok tt)) => match sp_update sha256 Debug SStorageMap kD va (Build_SpTree (sp_root_node t) (smap_erase b32_eqb (sp_storage t) h)) with
                        | (t', Val r) => check t' r | _ => false end
  | _ => false end.
Lemma C49_witness : clean [] [] small /\ hash_ok sha256 (kD :: map op_key small) (maps [] (small ++ [Update kD va])) /\
  update_without hB (fun _ r => match r with Err (SChildErr (ChildNotFound h)) => b32_eqb h hB | _ => false end) = true /\
  update_without hA (fun t' r => match r with Ok tt => b32_eqb (sp_root sha256 t') (kv_root sha256 (final (small ++ [Update kD va]))) | _ => false end) = true.
Proof.
  split; [apply cleanb_ok; reflexivity|]. split; [apply (listed_ok _ _ _ digests_used_ok); vm_compute; reflexivity|]. split; vm_compute; reflexivity.
Qed.

Lemma C46_witness :
  let s : SScratch := [(kA, (0, x00, kA, kB)); (kB, (0, x07, kA, kB))] in
  (exists t, sp_load SStorageMap kA s = (s, Val (Ok t))) /\
  sp_load SStorageMap kB s = (s, Val (Err (SDeserializeError (DPrefixError (InvalidPrefix x07))))) /\
  sp_load SStorageMap kC s = (s, Val (Err (SLoadError (hex_encode (b32 kC))))) /\
  exists fs, sp_load FaultySMap kA ([Fault], s) = (fs, Val (Err (SStorageError None))).
Proof.
  cbv zeta. split; [eexists; vm_compute; reflexivity|]. split; [vm_compute; reflexivity|]. split; [vm_compute; reflexivity|].
  eexists. vm_compute. reflexivity.
Qed.
Lemma C48_witness :
  let s : SScratch := [(kA, (0, x00, kA, kB)); (kB, (0, x07, kA, kB))] in
  (exists n, storage_node_left_child SStorageMap (Build_SNode 256 PNode kA kB) s = (s, Val (Ok n)) /\ sprim_of_node n = (0, x00, kA, kB)) /\
  storage_node_right_child SStorageMap (Build_SNode 256 PNode kA kB) s = (s, Val (Err (ChildErr (SNDeserializeError (DPrefixError (InvalidPrefix x07)))))) /\
  storage_node_left_child SStorageMap (Build_SNode 256 PNode kC kB) s = (s, Val (Err (ChildNotFound kC))) /\
  storage_node_left_child SStorageMap (Build_SNode 256 PNode zero32 kB) s = (s, Val (Ok snode_placeholder)) /\
  storage_node_left_child SStorageMap (Build_SNode 0 PLeaf kA kB) s = (s, Val (Err NodeIsLeaf)).
Proof.
  cbv zeta. split; [eexists; split; vm_compute; reflexivity|]. split; [vm_compute; reflexivity|]. split; [vm_compute; reflexivity|].
  split; vm_compute; reflexivity.
Qed.
(** A history that deletes a stale key: nothing is assumed about it. *)
Lemma C60_witness : Lawful SStorageMap sview /\ Lawful FunMap fview /\ Infallible SStorageMap /\ Infallible FunMap /\
  (forall k, sview smap_new k = fview (fun _ => None) k) /\
  match sp_run_all sha256 Debug SStorageMap twice (sp_new smap_new), sp_run_all sha256 Debug FunMap twice (sp_new (fun _ => None)) with
  | (t1, Val [Ok tt; Ok tt; Ok tt; Ok tt]), (t2, Val [Ok tt; Ok tt; Ok tt; Ok tt]) => b32_eqb (sp_root sha256 t1) (sp_root sha256 t2)
  | _, _ => false end = true.
Proof.
  split; [exact SStorageMap_lawful|]. split; [exact FunMap_lawful|]. split; [exact SStorageMap_infallible|]. split; [exact FunMap_infallible|].
  split; [reflexivity|]. vm_compute. reflexivity.
Qed.
Lemma C36_witness : match sp_run sha256 Debug SStorageMap [Update kA va; Update kB vb; Update kB []] (sp_new smap_new) with
  | (t, Val (Ok tt)) => b32_eqb (sp_root sha256 t) (kv_root sha256 [(kA, va)]) | _ => false end = true.
Proof. vm_compute. reflexivity. Qed.
Lemma C47_witness : clean [] [] hist /\ hash_ok sha256 (map op_key hist) (maps [] hist) /\
  match sim_run sha256 Release hist sim_new with
  | (t, Val tt) => b32_eqb (sim_root sha256 t) (kv_root sha256 [(kC, vc); (kA, vd)]) | _ => false end = true.
Proof.
  split; [apply cleanb_ok; reflexivity|]. split; [apply (within_ok _ _ _ _ hist_ok); reflexivity|]. vm_compute. reflexivity.
Qed.
