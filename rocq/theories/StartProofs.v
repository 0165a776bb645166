(** StartProofs.v -- starting over on the storage of tries that were given up: binary and sum trees. *)
From Verif Require Import Base Storage ModelCommon ModelBinary ModelSum SpecBits SpecBinary SpecBinaryFacts SpecSum SpecSumDisk
  Runs RunsSum RunsStart PositionProofs BinaryReadProofs BinaryProofs BinaryMain SumMain SumDisk.
From Coq Require Import Arith ZifyBool ZifyNat ZifyN.
Arguments Nat.mul : simpl never.
Arguments Z.of_nat : simpl never.

(** * Binary trees *)
Section Binary.
Variable H : list byte -> bytes32.
Variable pr : profile.
Context {St E : Type}.
Variable st : StorageT St Z BPrimitive E.
Variable view : St -> Z -> option BPrimitive.
Hypothesis L : Lawful st view.

(** Nothing changes but the places of the blocks of [ds]. *)
Definition off_blocks (n : nat) (s s' : St) : Prop :=
  forall k, (forall h b, ((b + 1) * 2 ^ h <= n)%nat -> k <> index_of h b) -> view s' k = view s k.

Lemma push_all_off : forall es ds t, binv H view ds t -> Z.of_nat (length (ds ++ es)) <= max_leaves ->
  exists t' r, bt_push_all H pr st es t = (t', Val r) /\ off_blocks (length (ds ++ es)) (bt_storage t) (bt_storage t') /\
    ((r = Ok tt /\ binv H view (ds ++ es) t') \/ (exists e, r = Err (BStorageError e) /\ ~ Infallible st)).
Proof.
  induction es as [|e es IH]; intros ds t Hi HN.
  - exists t, (Ok tt). rewrite app_nil_r. split; [reflexivity|]. split; [intros k _; reflexivity|auto].
  - cbn [bt_push_all]. unfold bind_try, bind.
    assert (HN' : Z.of_nat (length ds + 1) <= max_leaves) by (rewrite app_length in HN; cbn [length] in HN; lia).
    destruct (push_ok H pr st view L ds e t Hi HN') as (t1 & r & Er & O & C). rewrite Er.
    assert (O' : off_blocks (length (ds ++ e :: es)) (bt_storage t) (bt_storage t1)).
    { intros k Hk. apply O. intros h b Q. apply Hk. rewrite app_length. cbn [length]. lia. }
    destruct C as [(-> & Hi')|((e' & ->) & C & _)].
    + destruct (IH (ds ++ [e]) t1 Hi') as (t2 & r2 & -> & O2 & R); [rewrite <- app_assoc; exact HN|].
      rewrite <- app_assoc in O2, R. exists t2, r2. split; [reflexivity|]. split; [|exact R].
      intros k Hk. rewrite (O2 k Hk). apply O'. exact Hk.
    + exists t1, (Err (BStorageError e')). split; [reflexivity|]. split; [exact O'|]. right. eauto.
Qed.

Lemma bt_tries_off : forall ds s0 s1, Z.of_nat (length ds) <= max_leaves -> tries (bt_try H pr st) ds s0 s1 -> off_blocks (length ds) s0 s1.
Proof.
  intros ds s0 s1 HN T. induction T as [s|es rest s s1 T IH Q]; [intros k _; reflexivity|].
  assert (Le : (length es <= length ds)%nat) by (rewrite Q, app_length; lia).
  destruct (push_all_off es [] (bt_new s1) (binv_new _ _ _) ltac:(cbn [app]; lia)) as (t & r & A & O & _).
  unfold bt_try. rewrite A. cbn [fst]. intros k Hk. rewrite O; [apply IH; exact Hk|].
  intros h b Hb. apply Hk. cbn [app] in Hb. lia.
Qed.

Theorem C111_binary_lemma : H [] = empty_sum -> forall ds s0 s1, Z.of_nat (length ds) <= 2 ^ 63 -> tries (bt_try H pr st) ds s0 s1 ->
  exists t r, bt_push_all H pr st ds (bt_new s1) = (t, Val r) /\
    ((r = Ok tt /\ bt_root H pr t = Val (mth H ds) /\
      (forall h b, ((b + 1) * 2 ^ h <= length ds)%nat -> view (bt_storage t) (index_of h b) = Some (index_of h b, mth H (block h b ds))) /\
      (forall k, (forall h b, ((b + 1) * 2 ^ h <= length ds)%nat -> k <> index_of h b) -> view (bt_storage t) k = view s0 k)) \/
     (exists e, r = Err (BStorageError e) /\ ~ Infallible st)).
Proof.
  intros He ds s0 s1 HN T. pose proof (bt_tries_off ds s0 s1 HN T) as O1.
  destruct (push_all_off ds [] (bt_new s1) (binv_new _ _ _) HN) as (t & r & A & O & R).
  exists t, r. split; [exact A|]. destruct R as [(-> & B)|R]; [left|right; exact R]. split; [reflexivity|].
  cbn [app] in *. split; [apply root_is_mth; auto; apply B|]. split; [apply B|].
  intros k Hk. rewrite (O k Hk). apply O1. exact Hk.
Qed.
End Binary.

(** * Sum trees *)
Section Sum.
Variable H : list byte -> bytes32.
Variable fee : list leaf -> Z.

Lemma writes_app : forall a b ds, writes ds (a ++ b) = writes ds a ++ writes (ds ++ pushed a) b.
Proof.
  induction a as [|[x|] a IH]; intros b ds; cbn [app writes pushed]; [rewrite app_nil_r; reflexivity| |];
    rewrite IH, <- !app_assoc; reflexivity.
Qed.

Lemma written_eq : forall W (d d' : sum_disk) k, d k = d' k -> written H fee W d k = written H fee W d' k.
Proof.
  unfold written. induction W as [|x W IH]; intros d d' k Q; cbn [fold_left]; [exact Q|].
  apply IH. destruct (b32_eqb k (mst H fee x)); auto.
Qed.
Lemma written_cases : forall W k, (exists ls, In ls W /\ k = mst H fee ls) \/ (forall d : sum_disk, written H fee W d k = d k).
Proof.
  intros W k. unfold written. induction W as [|x W IH]; cbn [fold_left]; [right; reflexivity|].
  destruct (b32_eqb k (mst H fee x)) eqn:Q; [left; exists x; apply b32_eqb_eq in Q; split; [left|]; auto|].
  destruct IH as [(ls & Il & ->)|IH]; [left; exists ls; split; [right|]; auto|right].
  intros d. rewrite IH, Q. reflexivity.
Qed.
Lemma written_over : forall W k ls, In ls W -> k = mst H fee ls -> forall d d' : sum_disk, written H fee W d k = written H fee W d' k.
Proof.
  induction W as [|x W IH]; intros k ls Il Ek d d'; [destruct Il|]. destruct Il as [->|Il]; [|apply (IH k ls Il Ek)].
  apply (written_eq W). subst k. rewrite b32_eqb_refl. reflexivity.
Qed.
End Sum.

Section SumMain.
Variable H : list byte -> bytes32.
Variable pr : profile.
Context {St E : Type}.
Variable st : StorageT St bytes32 MNode E.
Variable view : St -> bytes32 -> option MNode.
Hypothesis L : Lawful st view.
Hypothesis He : H [] = empty_sum.

Lemma mt_tries_over : forall os s0 s1, fees_fit pr (pushed os) -> Z.of_nat (length (pushed os)) <= 2 ^ 64 -> tries (mt_try H pr st) os s0 s1 ->
  forall k, written H wrapped_fee (writes [] os) (fun k => option_map fields (view s1 k)) k =
            written H wrapped_fee (writes [] os) (fun k => option_map fields (view s0 k)) k.
Proof.
  intros os s0 s1 F HN T. induction T as [s|es rest s s1 T IH Q]; [reflexivity|]. intros k. rewrite <- IH. clear IH.
  destruct (C91_lemma H pr st view L He es s1) as (t & r & n & A & B & _).
  { rewrite Q, pushed_app in F. exact (proj1 (fit_app pr _ _ F)). }
  { rewrite Q, pushed_app, app_length in HN. lia. }
  unfold mt_try. rewrite A. cbn [fst].
  destruct (written_cases H wrapped_fee (firstn n (writes [] es)) k) as [(ls & Il & Ek)|Off].
  - apply (written_over H wrapped_fee _ k ls); [|exact Ek]. rewrite Q, writes_app. apply in_or_app. left.
    rewrite <- (firstn_skipn n (writes [] es)). apply in_or_app. left. exact Il.
  - apply written_eq. rewrite B. apply Off.
Qed.

Theorem C111_sum_lemma : forall os s0 s1, fees_fit pr (pushed os) -> Z.of_nat (length (pushed os)) <= 2 ^ 64 -> tries (mt_try H pr st) os s0 s1 ->
  exists t r, mt_run H pr st os (mt_new s1) = (t, Val r) /\
    ((r = Ok (sum_answers H wrapped_fee [] os) /\
      forall k, option_map fields (view (mt_storage t) k) = written H wrapped_fee (writes [] os) (fun k => option_map fields (view s0 k)) k) \/
     ((exists e, r = Err e) /\ ~ Infallible st)).
Proof.
  intros os s0 s1 F HN T. destruct (C91_lemma H pr st view L He os s1 F HN) as (t & r & n & A & B & R).
  exists t, r. split; [exact A|]. destruct R as [(-> & ->)|R]; [left|right; exact R]. split; [reflexivity|].
  intros k. rewrite B, firstn_all. apply mt_tries_over; auto.
Qed.
End SumMain.
