(** ProfileProofs.v -- builds with different switches, and with a usize of different width.
    [lax = true]: the first build may panic where the second goes on; [lax = false]: equality. *)
Require Import ZifyBool ZifyNat ZifyN.
From Verif Require Import Base Storage ModelCommon ModelBinary ModelSparse ModelSum ModelVerify SpecProfile SpecSparse SpecSum Runs RunsSum RunsSparse
  PositionProofs EndProofs SparseAny.

Create HintDb pr discriminated.
#[export] Hint Constants Opaque : pr.
#[export] Hint Variables Opaque : pr.

Section Builds.
Variable lax : bool.
Variables pa pb : profile.
Definition oref {A} (d r : out A) : Prop := (lax = true /\ d = Panic) \/ d = r.
Definition rref {S A} (d r : S * out A) : Prop := (lax = true /\ snd d = Panic) \/ d = r.
Definition mref {S A} (d r : M S A) : Prop := forall s, rref (d s) (r s).
Definition switch (a b : bool) : Prop := a = b \/ (lax = true /\ a = true).
Hypothesis HO : switch (overflow_checks pa) (overflow_checks pb).
Hypothesis HD : switch (debug_assertions pa) (debug_assertions pb).

Lemma or_refl : forall A (a : out A), oref a a.
Proof. intros. right. reflexivity. Qed.
Lemma or_bind : forall A B (a b : out A) (f g : A -> out B), oref a b -> (forall x, oref (f x) (g x)) ->
  oref (obind a f) (obind b g).
Proof. intros A B a b f g [[L ->]| ->] F; [left; split; [exact L|reflexivity]|]. destruct b; [apply F|right; reflexivity..]. Qed.
Lemma mr_refl : forall S A (m : M S A), mref m m.
Proof. intros S A m s. right. reflexivity. Qed.
Lemma mr_bind : forall S A B (a b : M S A) (f g : A -> M S B), mref a b -> (forall x, mref (f x) (g x)) -> mref (bind a f) (bind b g).
Proof.
  intros S A B a b f g R F s. unfold bind. destruct (R s) as [[L Q]|Q].
  - destruct (a s) as [s1 [x| |]]; cbn [snd] in Q; try discriminate. left. split; [exact L|reflexivity].
  - rewrite Q. destruct (b s) as [s1 [x| |]]; [apply F|right; reflexivity..].
Qed.
Lemma mr_try : forall S E A B (a b : M S (result E A)) (f g : A -> M S (result E B)), mref a b -> (forall x, mref (f x) (g x)) ->
  mref (bind_try a f) (bind_try b g).
Proof. intros S E A B a b f g R F. apply mr_bind; [exact R|]. intros [x|e]; [apply F|apply mr_refl]. Qed.
Lemma mr_lift : forall S A (a b : out A), oref a b -> mref (S := S) (lift a) (lift b).
Proof. intros S A a b [[L ->]| ->] s; [left; split; [exact L|reflexivity]|right; reflexivity]. Qed.
Lemma mr_on_storage : forall S A (a b : M S A), mref a b -> mref (on_storage a) (on_storage b).
Proof.
  intros S A a b R [n s]. unfold on_storage. cbn [sp_storage sp_root_node]. destruct (R s) as [[L Q]|Q].
  - destruct (a s) as [s1 o]; cbn [snd] in Q. subst o. left. split; [exact L|reflexivity].
  - rewrite Q. right. reflexivity.
Qed.
Lemma or_snd : forall S A (a b : M S A) s, mref a b -> oref (snd (a s)) (snd (b s)).
Proof. intros S A a b s R. destruct (R s) as [Q|Q]; [left; exact Q|right; rewrite Q; reflexivity]. Qed.

Ltac rf := repeat first
  [ match goal with |- oref ?a ?a => apply or_refl | |- mref ?a ?a => apply mr_refl end
  | solve [auto with pr nocore]
  | match goal with
    | |- oref (obind _ _) (obind _ _) => apply or_bind; [|intros]
    | |- mref (bind _ _) (bind _ _) => apply mr_bind; [|intros]
    | |- mref (bind_try _ _) (bind_try _ _) => apply mr_try; [|intros]
    | |- mref (lift _) (lift _) => apply mr_lift
    | |- mref (on_storage _) (on_storage _) => apply mr_on_storage
    end
  | match goal with |- context [match ?x with _ => _ end] => is_var x; destruct x end
  | match goal with |- context [if ?b then _ else _] => destruct b end ].

Lemma sw_ovf : forall A (a b : out A) (c : bool), oref (if c then a else if overflow_checks pa then Panic else b) (if c then a else if overflow_checks pb then Panic else b).
Proof.
  intros A a b [|]; [apply or_refl|]. destruct HO as [->|[L ->]]; [apply or_refl|left; split; [exact L|reflexivity]].
Qed.
Lemma r_u64 : forall z, oref (u64_ovf pa z) (u64_ovf pb z).
Proof. intros z. apply sw_ovf. Qed.
Lemma r_i64 : forall z, oref (i64_ovf pa z) (i64_ovf pb z).
Proof. intros z. apply sw_ovf. Qed.
Lemma r_u32 : forall z, oref (u32_ovf pa z) (u32_ovf pb z).
Proof. intros z. apply sw_ovf. Qed.
Lemma r_shift : forall z, oref (shift_amount pa z) (shift_amount pb z).
Proof. intros z. apply sw_ovf. Qed.
Hint Resolve r_u64 r_i64 r_u32 r_shift : pr.
Lemma r_shl_i : forall z, oref (shl1_i64 pa z) (shl1_i64 pb z).
Proof. intros z. unfold shl1_i64. rf. Qed.
Lemma r_shl_u : forall z, oref (shl1_u64 pa z) (shl1_u64 pb z).
Proof. intros z. unfold shl1_u64. rf. Qed.
Lemma r_dassert : forall b, oref (debug_assert pa b) (debug_assert pb b).
Proof. intros b. unfold debug_assert. destruct HD as [->|[L ->]]; [apply or_refl|]. destruct b; [destruct (debug_assertions pb); apply or_refl|left; split; [exact L|reflexivity]]. Qed.
Hint Resolve r_shl_i r_shl_u r_dassert : pr.

(** * Positions *)
Lemma r_from_leaf : forall i, oref (pos_from_leaf_index pa i) (pos_from_leaf_index pb i).
Proof. intros. unfold pos_from_leaf_index. rf. Qed.
Lemma r_orientation : forall p, oref (pos_orientation pa p) (pos_orientation pb p).
Proof. intros. unfold pos_orientation. rf. Qed.
Hint Resolve r_from_leaf r_orientation : pr.
Lemma r_direction : forall p, oref (pos_direction pa p) (pos_direction pb p).
Proof. intros. unfold pos_direction. rf. Qed.
Lemma r_offset : forall p a b, oref (pos_offset pa p a b) (pos_offset pb p a b).
Proof. intros. unfold pos_offset. rf. Qed.
Hint Resolve r_direction r_offset : pr.
Lemma r_sibling : forall p, oref (pos_sibling pa p) (pos_sibling pb p).
Proof. intros. unfold pos_sibling. rf. Qed.
Lemma r_parent : forall p, oref (pos_parent pa p) (pos_parent pb p).
Proof. intros. unfold pos_parent. rf. Qed.
Lemma r_child : forall p d, oref (pos_child pa p d) (pos_child pb p d).
Proof. intros. unfold pos_child. rf. Qed.
Hint Resolve r_sibling r_parent r_child : pr.
Lemma r_uncle : forall p, oref (pos_uncle pa p) (pos_uncle pb p).
Proof. intros. unfold pos_uncle. rf. Qed.
Lemma r_left : forall p, oref (pos_left_child pa p) (pos_left_child pb p).
Proof. intros. unfold pos_left_child. rf. Qed.
Lemma r_right : forall p, oref (pos_right_child pa p) (pos_right_child pb p).
Proof. intros. unfold pos_right_child. rf. Qed.
Hint Resolve r_uncle r_left r_right : pr.

Lemma r_pos_iter_new : forall a b, oref (path_iter_new pa (PositionNode pa) a b) (path_iter_new pb (PositionNode pb) a b).
Proof.
  intros. unfold path_iter_new. cbn [pn_key_size_in_bits pn_height PositionNode]. pose proof (height_range a).
  rewrite !usize_ovf_in by lia. apply or_refl.
Qed.
Lemma r_pos_next : forall it, mref (path_iter_next (PositionNode pa) it) (path_iter_next (PositionNode pb) it).
Proof.
  intros [leaf cur off]. unfold path_iter_next. cbn [it_current it_leaf it_current_offset pn_leaf_key pn_is_node pn_left_child pn_right_child PositionNode].
  destruct cur as [[[pn|e] o]|]; try apply mr_refl. destruct (pos_is_node pn); [|apply mr_refl].
  apply mr_bind; [apply mr_refl|]. intros path. destruct (get_instruction path off) as [[]|]; rf.
Qed.
Hint Resolve r_pos_next r_pos_iter_new : pr.
Lemma r_iter_collect : forall f it, oref (position_iter_collect pa f it) (position_iter_collect pb f it).
Proof.
  induction f as [|f IH]; intros it; cbn [position_iter_collect]; [apply or_refl|].
  apply or_bind; [apply (or_snd _ _ _ _ tt); apply r_pos_next|]. intros [[[[a|e] [b|e']]|] it']; rf.
Qed.
Hint Resolve r_iter_collect : pr.
Lemma r_iter : forall a b, oref (position_iter pa a b) (position_iter pb a b).
Proof. intros. unfold position_iter. rf. Qed.
Lemma r_descend : forall f r s, oref (side_descend pa f r s) (side_descend pb f r s).
Proof. induction f as [|f IH]; intros r s; cbn [side_descend]; rf. Qed.
Hint Resolve r_descend : pr.
Lemma r_pp_new : forall a b n, oref (position_path_iter_new pa a b n) (position_path_iter_new pb a b n).
Proof. intros. unfold position_path_iter_new. rf. Qed.
Lemma r_pp_next_loop : forall f it, oref (position_path_next_loop pa f it) (position_path_next_loop pb f it).
Proof.
  induction f as [|f IH]; intros it; cbn [position_path_next_loop]; [apply or_refl|].
  apply or_bind; [apply (or_snd _ _ _ _ tt); apply r_pos_next|]. intros [[[[a|e] [b|e']]|] it']; rf.
Qed.
Hint Resolve r_pp_new r_pp_next_loop : pr.
Lemma r_pp_next : forall it, oref (position_path_next pa it) (position_path_next pb it).
Proof. intros. apply r_pp_next_loop. Qed.
Hint Resolve r_pp_next : pr.
Lemma r_pp_collect : forall f it, oref (position_path_collect pa f it) (position_path_collect pb f it).
Proof.
  induction f as [|f IH]; intros it; cbn [position_path_collect]; [apply or_refl|].
  apply or_bind; [apply r_pp_next|]. intros [[x|] it']; rf.
Qed.
Hint Resolve r_pp_collect : pr.
Lemma r_path : forall a b n, oref (position_path pa a b n) (position_path pb a b n).
Proof. intros. unfold position_path. rf. Qed.
Hint Resolve r_path : pr.

Section WithHash.
Variable H : list byte -> bytes32.

(** * Binary tree *)
Lemma r_b_leaf : forall i d, oref (bnode_create_leaf H pa i d) (bnode_create_leaf H pb i d).
Proof. intros. unfold bnode_create_leaf. rf. Qed.
Lemma r_b_node : forall a b, oref (bnode_create_node H pa a b) (bnode_create_node H pb a b).
Proof. intros. unfold bnode_create_node. rf. Qed.
Hint Resolve r_b_leaf r_b_node : pr.
Lemma r_build_root : forall next cur sc, oref (build_root_node H pa cur next sc) (build_root_node H pb cur next sc).
Proof. induction next as [|n next IH]; intros cur sc; cbn [build_root_node]; rf. Qed.
Hint Resolve r_build_root : pr.
Lemma r_bt_root_node : forall S (t : BTree S) sc, oref (bt_root_node H pa t sc) (bt_root_node H pb t sc).
Proof. intros. unfold bt_root_node. destruct (bt_head t); rf. Qed.
Hint Resolve r_bt_root_node : pr.
Lemma r_bt_root : forall S (t : BTree S), oref (bt_root H pa t) (bt_root H pb t).
Proof. intros. unfold bt_root. rf. Qed.
Lemma r_next_pow : forall n, oref (next_power_of_two pa n) (next_power_of_two pb n).
Proof. intros. unfold next_power_of_two. rf. Qed.
Hint Resolve r_next_pow : pr.
Lemma r_root_position : forall n, oref (bt_root_position pa n) (bt_root_position pb n).
Proof. intros. unfold bt_root_position. rf. Qed.
Hint Resolve r_root_position : pr.
Lemma r_peaks : forall n, oref (bt_peak_positions pa n) (bt_peak_positions pb n).
Proof. intros. unfold bt_peak_positions. rf. Qed.
Hint Resolve r_peaks : pr.

Section Storage.
Context {S E : Type}.
Variable st : StorageT S Z BPrimitive E.
Lemma r_bt_load : forall n, mref (bt_load pa st n) (bt_load pb st n).
Proof. intros. unfold bt_load. rf. Qed.
Lemma r_bt_join : forall f, mref (bt_join_all_subtrees_loop H pa st f) (bt_join_all_subtrees_loop H pb st f).
Proof.
  induction f as [|f IH]; cbn [bt_join_all_subtrees_loop]; [apply mr_refl|]. apply mr_bind; [apply mr_refl|]. intros t.
  destruct (bt_head t) as [|a [|b l]]; rf.
Qed.
Hint Resolve r_bt_join : pr.
Lemma r_bt_push : forall d, mref (bt_push H pa st d) (bt_push H pb st d).
Proof. intros. unfold bt_push, bt_join_all_subtrees. rf. Qed.
Lemma r_bt_prove : forall i, mref (bt_prove H pa st i) (bt_prove H pb st i).
Proof. intros. unfold bt_prove. rf. Qed.
Hint Resolve r_bt_push : pr.
Lemma r_bt_push_all : forall ds, mref (bt_push_all H pa st ds) (bt_push_all H pb st ds).
Proof. induction ds as [|d ds IH]; cbn [bt_push_all]; rf. Qed.
End Storage.

(** * Sparse tree *)
Lemma r_common : forall a b, oref (snode_common_path_length pa a b) (snode_common_path_length pb a b).
Proof. intros. unfold snode_common_path_length. rf. Qed.
Hint Resolve r_common : pr.
Lemma prefix_loop_range : forall a b n i c, common_prefix_loop a b n i = Val c -> 0 <= c <= Z.of_nat n.
Proof.
  intros a b. induction n as [|n IH]; intros i c E; cbn [common_prefix_loop] in E; [injection E as <-; lia|].
  destruct (get_bit_at_index_from_msb a i); [|discriminate]. destruct (get_bit_at_index_from_msb b i); [|discriminate].
  destruct (bit_eqb _ _); [|injection E as <-; lia].
  destruct (common_prefix_loop a b n (i + 1)) as [c'| |] eqn:E'; try discriminate. injection E as <-. apply IH in E'. lia.
Qed.
Lemma common_range : forall pr a b c, snode_common_path_length pr a b = Val c -> 0 <= c <= 256.
Proof.
  intros pr a b c E. unfold snode_common_path_length in E.
  destruct (debug_assert pr (snode_is_leaf a)); try discriminate. cbn [obind] in E.
  destruct (debug_assert pr (snode_is_leaf b)); try discriminate. cbn [obind] in E.
  destruct (snode_is_placeholder a || snode_is_placeholder b); [injection E as <-; lia|].
  destruct (snode_leaf_key a) as [ka| |]; try discriminate. destruct (snode_leaf_key b) as [kb| |]; try discriminate.
  cbn [obind] in E. apply prefix_loop_range in E. rewrite b32_length in E. lia.
Qed.
Lemma u32_out : forall pr z h, u32_ovf pr z = Val h -> 0 <= h < 2 ^ 32.
Proof.
  intros pr z h E. unfold u32_ovf in E. destruct ((0 <=? z) && (z <? 2 ^ 32)) eqn:R; [injection E as <-; lia|].
  destruct (overflow_checks pr); [discriminate|]. injection E as <-. apply Z.mod_pos_bound. lia.
Qed.
(** More than 256 levels: the subtraction panics or gives an offset beyond every key. *)
Lemma usize_under : forall pr h, 256 < h < 2 ^ 32 ->
  usize_ovf pr (256 - h) = if overflow_checks pr then Panic else Val (match usize_width pr with W32 => 2 ^ 32 | W64 => 2 ^ 64 end + 256 - h).
Proof.
  intros pr h Hh. unfold usize_ovf, u32_ovf, u64_ovf, in_u64, as_u64, U64.
  replace (0 <=? 256 - h) with false by lia. cbn [andb].
  destruct (usize_width pr), (overflow_checks pr); try reflexivity; f_equal.
  - replace ((256 - h) mod 2 ^ 32) with ((256 - h + 1 * 2 ^ 32) mod 2 ^ 32) by (apply Z.mod_add; lia). rewrite Z.mod_small by lia. lia.
  - replace ((256 - h) mod 2 ^ 64) with ((256 - h + 1 * 2 ^ 64) mod 2 ^ 64) by (apply Z.mod_add; lia). rewrite Z.mod_small by lia. lia.
Qed.
Lemma instruction_beyond : forall (a : bytes32) i, 256 <= i -> get_instruction a i = None.
Proof.
  intros a i Hi. destruct (get_instruction a i) as [j|] eqn:G; [|reflexivity].
  apply (instruction_short H) in G; [lia|apply b32_length|lia].
Qed.
Lemma join_under : forall pr h (k : bytes32) a b, 256 < h < 2 ^ 32 ->
  (d <-! usize_ovf pr (256 - h) ;; join_by_instruction H k d a b h) = Panic.
Proof.
  intros pr h k a b Hh. rewrite usize_under by exact Hh. destruct (overflow_checks pr); [reflexivity|].
  cbn [obind]. unfold join_by_instruction. rewrite instruction_beyond; [reflexivity|]. destruct (usize_width pr); lia.
Qed.
Lemma r_create : forall k a b, oref (snode_create_node_on_path H pa k a b) (snode_create_node_on_path H pb k a b).
Proof.
  intros k a b. unfold snode_create_node_on_path. destruct (snode_is_leaf a && snode_is_leaf b).
  - destruct (r_common a b) as [[L ->]|Q]; [left; split; [exact L|reflexivity]|]. rewrite Q.
    destruct (snode_common_path_length pb a b) as [d| |] eqn:E; try apply or_refl. cbn [obind].
    apply common_range in E. unfold max_height. rewrite !usize_ovf_in by lia. apply or_refl.
  - destruct (r_u32 (Z.max (sn_height a) (sn_height b) + 1)) as [[L ->]|Q]; [left; split; [exact L|reflexivity]|]. rewrite Q.
    destruct (u32_ovf pb (Z.max (sn_height a) (sn_height b) + 1)) as [h| |] eqn:E; try apply or_refl. cbn [obind].
    apply u32_out in E. unfold max_height. destruct (Z_le_gt_dec h 256).
    + rewrite !usize_ovf_in by lia. apply or_refl.
    + rewrite !join_under by lia. apply or_refl.
Qed.
Hint Resolve r_create : pr.
Section Sparse.
Context {S E : Type}.
Variable st : StorageT S bytes32 SPrimitive E.
Lemma r_usize : usize_width pa = usize_width pb -> forall z, oref (usize_ovf pa z) (usize_ovf pb z).
Proof. intros W z. unfold usize_ovf. rewrite W. destruct (usize_width pb); [apply r_u32|apply r_u64]. Qed.
Lemma collect_beyond : forall root leaf o1 o2 s, 256 <= o1 -> 256 <= o2 ->
  path_set_collect st 258 (Build_PathIter leaf (Some (Ok root, Ok root)) o1) s =
  path_set_collect st 258 (Build_PathIter leaf (Some (Ok root, Ok root)) o2) s.
Proof.
  intros root leaf o1 o2 s H1 H2. change 258%nat with (Datatypes.S (Datatypes.S 256)).
  cbn [path_set_collect]. unfold bind, bind_try, bind, ret, lift, path_iter_next.
  cbn [it_current it_leaf it_current_offset pn_is_node pn_leaf_key StorageNode]. destruct (snode_is_node root); [|reflexivity].
  unfold bind, lift. destruct (snode_leaf_key leaf) as [k| |]; cbn [obind]; try reflexivity.
  rewrite !instruction_beyond by assumption. reflexivity.
Qed.
(** The widths agree, or the height is one a u32 can hold. *)
Definition fits (n : SNode) : Prop := usize_width pa = usize_width pb \/ 0 <= sn_height n < 2 ^ 32.
Lemma r_path_set : forall a b, fits a -> mref (path_set pa st a b) (path_set pb st a b).
Proof.
  intros a b [W|Hh]; unfold path_set, path_iter_new; cbn [pn_key_size_in_bits pn_height StorageNode]; unfold max_height.
  - apply mr_bind; [apply mr_lift; apply or_bind; [apply r_usize; exact W|intros; apply or_refl]|]. intros; apply mr_refl.
  - destruct (Z_le_gt_dec (sn_height a) 256).
    + rewrite !usize_ovf_in by lia. apply mr_refl.
    + rewrite !usize_under by lia. destruct HO as [->|[L ->]].
      * destruct (overflow_checks pb); [apply mr_refl|]. intros s. right. unfold bind at 1. unfold lift. cbn [obind].
        unfold bind at 1, lift. cbn [obind]. unfold bind_try, bind.
        erewrite collect_beyond; [reflexivity|..]; [destruct (usize_width pa)|destruct (usize_width pb)]; lia.
      * intros s. left. split; [exact L|reflexivity].
Qed.
Lemma r_set_root : forall n, mref (sp_set_root_node (S := S) pa n) (sp_set_root_node pb n).
Proof. intros. unfold sp_set_root_node. rf. Qed.
Lemma r_join : forall k a b, mref (join_and_store H pa st k a b) (join_and_store H pb st k a b).
Proof. intros. unfold join_and_store. rf. Qed.
Hint Resolve r_set_root r_join : pr.
Lemma r_merge : forall k l a, mref (merge_side_nodes H pa st k a l) (merge_side_nodes H pb st k a l).
Proof. induction l as [|x l IH]; intros a; cbn [merge_side_nodes]; rf. Qed.
Hint Resolve r_merge : pr.
Lemma r_update_path : forall n l l', mref (update_with_path_set H pa st n l l') (update_with_path_set H pb st n l l').
Proof. intros. unfold update_with_path_set. rf. Qed.
Lemma r_delete_path : forall n l l', mref (delete_with_path_set H pa st n l l') (delete_with_path_set H pb st n l l').
Proof.
  intros. unfold delete_with_path_set. apply mr_try; [apply mr_refl|]. intros. apply mr_bind; [apply mr_refl|]. intros k.
  apply mr_try; [destruct l' as [|a l']; [apply mr_refl|]; destruct (snode_is_leaf a); [|apply mr_refl]; destruct (find_non_placeholder l') as [[b|] l2]; rf|].
  intros [c l2]. rf.
Qed.
Hint Resolve r_update_path r_delete_path : pr.
Lemma rr_get : forall S' A (f g : S' -> M S' A) t, rref (f t t) (g t t) -> rref (bind get_state f t) (bind get_state g t).
Proof. intros S' A f g t R. exact R. Qed.
Lemma rr_lift : forall S' A B (a : out A) (f g : A -> M S' B) t, (forall x, rref (f x t) (g x t)) -> rref (bind (lift a) f t) (bind (lift a) g t).
Proof. intros S' A B [x| |] f g t R; [apply R|right; reflexivity..]. Qed.
Lemma r_delete : forall k t, fits (sp_root_node t) -> rref (sp_delete H pa st k t) (sp_delete H pb st k t).
Proof.
  intros k t F. unfold sp_delete. apply rr_get.
  match goal with |- rref (?a t) (?b t) => assert (R : mref a b); [|exact (R t)] end.
  destruct (b32_eqb (sp_root H t) zero_sum); [apply mr_refl|].
  apply mr_try; [apply mr_refl|]. intros [p|]; [|apply mr_refl]. destruct (snode_try_from p) as [n|e]; [|apply mr_refl].
  apply mr_try; [apply mr_on_storage; apply r_path_set; exact F|]. intros [a b]. apply r_delete_path.
Qed.
Lemma on_insert : forall k v (t : SpTree S), fst (on_storage (sst_insert st k v) t) = Build_SpTree (sp_root_node t) (fst (sst_insert st k v (sp_storage t))).
Proof. intros k v [n s]. unfold on_storage. cbn [sp_storage sp_root_node]. destruct (sst_insert st k v s). reflexivity. Qed.
Lemma rr_try_insert : forall A k v (f g : unit -> M (SpTree S) (result (SError E) A)) t,
  (forall s, rref (f tt (Build_SpTree (sp_root_node t) s)) (g tt (Build_SpTree (sp_root_node t) s))) ->
  rref (bind_try (on_storage (sst_insert st k v)) f t) (bind_try (on_storage (sst_insert st k v)) g t).
Proof.
  intros A k v f g t F. unfold bind_try, bind. pose proof (on_insert k v t) as Q.
  destruct (on_storage (sst_insert st k v) t) as [t1 [[[]|e]| |]]; cbn [fst] in Q; [|right; reflexivity..].
  rewrite Q. apply F.
Qed.
Lemma r_update : forall k v t, fits (sp_root_node t) -> rref (sp_update H pa st k v t) (sp_update H pb st k v t).
Proof.
  intros k [|b v] t F; unfold sp_update.
  - unfold bind_try, bind. destruct (r_delete k t F) as [[L Q]|Q].
    + destruct (sp_delete H pa st k t) as [t1 o]. cbn [snd] in Q. subst o. left. split; [exact L|reflexivity].
    + rewrite Q. right. reflexivity.
  - cbv zeta. apply rr_try_insert. intros s. apply rr_lift. intros lk.
    apply rr_try_insert. intros s'. apply rr_get. cbn [sp_root_node].
    match goal with |- rref (?a ?t0) (?b ?t0) => assert (R : mref a b); [|exact (R t0)] end.
    destruct (snode_is_placeholder (sp_root_node t)); [rf|].
    apply mr_try; [apply mr_on_storage; apply r_path_set; exact F|]. intros [x y]. apply r_update_path.
Qed.
Lemma r_apply : forall o t, fits (sp_root_node t) -> rref (sp_apply H pa st o t) (sp_apply H pb st o t).
Proof. intros [k v|k] t F; cbn [sp_apply]; [apply r_update|apply r_delete]; exact F. Qed.
(** Histories: [inv] holds of the tree all along, for example because all heights fit. *)
Variable inv : SpTree S -> Prop.
Hypothesis inv_fits : forall t, inv t -> fits (sp_root_node t).
Hypothesis inv_keep : forall o t, inv t -> inv (fst (sp_apply H pb st o t)).
Lemma r_run_all : forall os t, inv t -> rref (sp_run_all H pa st os t) (sp_run_all H pb st os t).
Proof.
  induction os as [|o os IH]; intros t Ht; cbn [sp_run_all]; [right; reflexivity|].
  unfold bind. pose proof (inv_keep o t Ht) as K. destruct (r_apply o t (inv_fits t Ht)) as [[L Q]|Q].
  - destruct (sp_apply H pa st o t) as [t1 ou]. cbn [snd] in Q. subst ou. left. split; [exact L|reflexivity].
  - rewrite Q. destruct (sp_apply H pb st o t) as [t1 [r| |]]; [|right; reflexivity..]. cbn [fst] in K.
    destruct (IH t1 K) as [[L Q']|Q'].
    + destruct (sp_run_all H pa st os t1) as [t2 ou]. cbn [snd] in Q'. subst ou. left. split; [exact L|reflexivity].
    + rewrite Q'. right. reflexivity.
Qed.
End Sparse.

(** * Sum tree *)
Section Sum.
Context {S E : Type}.
Variable st : StorageT S bytes32 MNode E.
Lemma r_m_node : forall h a b c d, oref (mnode_create_node H pa h a b c d) (mnode_create_node H pb h a b c d).
Proof. intros. unfold mnode_create_node. rf. Qed.
Hint Resolve r_m_node : pr.
Lemma r_m_join : forall a b, mref (mt_join_subtrees H pa st a b) (mt_join_subtrees H pb st a b).
Proof. intros. unfold mt_join_subtrees. rf. Qed.
Hint Resolve r_m_join : pr.
Lemma r_m_root_loop : forall l a, mref (mt_root_node_loop H pa st a l) (mt_root_node_loop H pb st a l).
Proof. induction l as [|x l IH]; intros a; cbn [mt_root_node_loop]; rf. Qed.
Hint Resolve r_m_root_loop : pr.
Lemma r_mt_root : mref (mt_root H pa st) (mt_root H pb st).
Proof. unfold mt_root, mt_root_node. apply mr_try; [|intros; rf]. apply mr_bind; [apply mr_refl|]. intros t. destruct (mt_head t); rf. Qed.
Lemma r_m_join_all : forall f, mref (mt_join_all_subtrees_loop H pa st f) (mt_join_all_subtrees_loop H pb st f).
Proof.
  induction f as [|f IH]; cbn [mt_join_all_subtrees_loop]; [apply mr_refl|]. apply mr_bind; [apply mr_refl|]. intros t.
  destruct (mt_head t) as [|a [|b l]]; rf.
Qed.
Hint Resolve r_mt_root r_m_join_all : pr.
Lemma r_mt_push : forall f d, mref (mt_push H pa st f d) (mt_push H pb st f d).
Proof. intros. unfold mt_push, mt_join_all_subtrees. cbv zeta. rf. Qed.
Hint Resolve r_mt_push : pr.
Lemma r_mt_run : forall os, mref (mt_run H pa st os) (mt_run H pb st os).
Proof. induction os as [|[l|] os IH]; cbn [mt_run]; rf. Qed.
End Sum.

(** * Verifier and reference tree *)
Lemma r_verify_loop : forall f ps i n s e h, oref (verify_loop H pa f ps i n s e h) (verify_loop H pb f ps i n s e h).
Proof. induction f as [|f IH]; intros; cbn [verify_loop]; cbv zeta; rf. Qed.
Hint Resolve r_verify_loop : pr.
Lemma r_verify : forall r ps i n, oref (verify H pa r ps i n) (verify H pb r ps i n).
Proof.
  intros. unfold verify. destruct (i >=? n); [apply or_refl|]. destruct ps as [|p ps]; [apply or_refl|].
  apply or_bind; [apply r_verify_loop|]. intros [[[s e] h]|]; [|apply or_refl]. cbv zeta. rf.
Qed.
Lemma r_rt_join : forall a b, oref (rt_join_subtrees H pa a b) (rt_join_subtrees H pb a b).
Proof. intros. unfold rt_join_subtrees. rf. Qed.
Hint Resolve r_rt_join : pr.
Lemma r_rt_root_loop : forall l a, oref (rt_root_loop H pa a l) (rt_root_loop H pb a l).
Proof. induction l as [|x l IH]; intros a; cbn [rt_root_loop]; rf. Qed.
Hint Resolve r_rt_root_loop : pr.
Lemma r_rt_root : forall t, oref (rt_root H pa t) (rt_root H pb t).
Proof. intros. unfold rt_root. destruct (rt_head t); rf. Qed.
Lemma r_rt_join_all : forall f t, oref (rt_join_all_loop H pa f t) (rt_join_all_loop H pb f t).
Proof.
  induction f as [|f IH]; intros t; cbn [rt_join_all_loop]; [apply or_refl|]. destruct (rt_head t) as [|a [|b l]]; cbv zeta; rf.
Qed.
Hint Resolve r_rt_root r_rt_join_all : pr.
Lemma r_rt_push : forall d t, oref (rt_push H pa d t) (rt_push H pb d t).
Proof. intros. unfold rt_push. cbv zeta. rf. Qed.
Lemma r_rt_prove_join : forall k l a, oref (rt_prove_join H pa k a l) (rt_prove_join H pb k a l).
Proof. induction l as [|x l IH]; intros a; cbn [rt_prove_join]; rf. Qed.
Hint Resolve r_rt_push r_rt_prove_join : pr.
Lemma r_rt_prove : forall t, oref (rt_prove H pa t) (rt_prove H pb t).
Proof.
  intros. unfold rt_prove. cbv zeta. destruct (rt_head t) as [|h l]; [rf|].
  destruct (Z.of_nat (length (rt_proof_set t)) =? 0); [rf|]. apply or_bind; [rf|]. intros [c next].
  destruct (match next with | [] => _ | _ => _ end) as [ps rest]. rf.
Qed.
Lemma r_rt_push_all : forall ds t, oref (rt_push_all H pa ds t) (rt_push_all H pb ds t).
Proof. induction ds as [|d ds IH]; intros t; cbn [rt_push_all]; rf. Qed.
End WithHash.
End Builds.
