(** DebugText.v -- the Debug texts follow the layout of SpecText.v. *)
From Coq Require Import String.
From Verif Require Import Base Sha256 ModelText ModelCommon ModelSparse ModelSum ModelDebug SpecText PositionProofs TextProofs DebugProofs.
From Coq Require Import String Decimal DecimalString DecimalFacts DecimalN DecimalPos.
From Coq Require Import List.

Lemma digits_acc : forall u p, exists ds,
  Forall2 (fun c d => 0 <= d < 10 /\ Z_of_byte c = 48 + d) (text (NilEmpty.string_of_uint u)) ds /\
  fold_left (fun a d => 10 * a + d) ds (Zpos p) = Zpos (Pos.of_uint_acc u p).
Proof.
  induction u as [|u IH|u IH|u IH|u IH|u IH|u IH|u IH|u IH|u IH|u IH]; intros p.
  { exists []. split; [constructor|reflexivity]. }
  all: cbn [Pos.of_uint_acc];
    match goal with I : forall p, exists ds, _ |- context [Pos.of_uint_acc _ ?q] => destruct (I q) as (ds & F & E) end;
    match goal with
    | |- context [D0 _] => exists (0 :: ds)
    | |- context [D1 _] => exists (1 :: ds)
    | |- context [D2 _] => exists (2 :: ds)
    | |- context [D3 _] => exists (3 :: ds)
    | |- context [D4 _] => exists (4 :: ds)
    | |- context [D5 _] => exists (5 :: ds)
    | |- context [D6 _] => exists (6 :: ds)
    | |- context [D7 _] => exists (7 :: ds)
    | |- context [D8 _] => exists (8 :: ds)
    | |- context [D9 _] => exists (9 :: ds)
    end;
    (split; [cbn; constructor; [split; [lia|reflexivity]|exact F]|]);
    cbn [fold_left]; rewrite <- E; f_equal; lia.
Qed.
Lemma digits_uint : forall u, exists ds,
  Forall2 (fun c d => 0 <= d < 10 /\ Z_of_byte c = 48 + d) (text (NilEmpty.string_of_uint u)) ds /\
  number 10 ds = Z.of_N (Pos.of_uint u).
Proof.
  induction u as [|u IH|u IH|u IH|u IH|u IH|u IH|u IH|u IH|u IH|u IH].
  { exists []. split; [constructor|reflexivity]. }
  { destruct IH as (ds & F & E). exists (0 :: ds). split; [cbn; constructor; [split; [lia|reflexivity]|exact F]|].
    unfold number in *. cbn [fold_left]. exact E. }
  all: clear IH; cbn [Pos.of_uint];
    match goal with |- context [Pos.of_uint_acc ?w ?q] => destruct (digits_acc w q) as (ds & F & E); exists (Zpos q :: ds) end;
    (split; [cbn; constructor; [split; [lia|reflexivity]|exact F]|]);
    unfold number; cbn [fold_left]; exact E.
Qed.
Lemma dec_decimal : forall z, 0 <= z -> SpecText.decimal (dec z) z.
Proof.
  intros z Hz. unfold dec. set (u := N.to_uint (Z.to_N z)).
  assert (V : Pos.of_uint u = Z.to_N z) by exact (DecimalN.Unsigned.of_to (Z.to_N z)).
  assert (NN : u <> Nil).
  { intros C. unfold u in C. destruct (Z.to_N z) as [|p]; [discriminate C|]. cbn in C. apply (DecimalPos.Unsigned.to_uint_nonnil p C). }
  assert (S : NilZero.string_of_uint u = NilEmpty.string_of_uint u) by (unfold NilZero.string_of_uint; destruct u; [congruence|reflexivity..]).
  rewrite S. destruct (digits_uint u) as (ds & F & E).
  assert (W : number 10 ds = z) by (rewrite E, V; lia).
  assert (N : unorm u = u).
  { rewrite <- (DecimalN.Unsigned.to_of u). unfold N.of_uint. rewrite V. reflexivity. }
  split; [destruct u; [congruence|discriminate..]|]. split; [|exists ds; split; assumption].
  destruct u as [|u|u|u|u|u|u|u|u|u|u]; cbn; try discriminate. intros _.
  destruct u as [|v|v|v|v|v|v|v|v|v|v]; [reflexivity|..]; exfalso;
    unfold unorm in N; rewrite nzhead_D0 in N;
    match type of N with match nzhead ?w with _ => _ end = _ => pose proof (nzhead_nonzero w) as Q; destruct (nzhead w) eqn:Z0 end;
    try discriminate N; exact (Q _ eq_refl).
Qed.

Lemma hex_value : forall l, value_text (Bytes l) (quoted (hex_encode l)).
Proof. intros l. unfold quoted. change (text """") with [quote]. cbn [app]. constructor. apply C80_encode_lemma. reflexivity. Qed.
Lemma number_value : forall z, 0 <= z -> value_text (Number z) (dec z).
Proof. intros z Hz. constructor. apply dec_decimal, Hz. Qed.

(** A list of labelled values and the texts given to [debug_struct]. *)
Definition same (a : string * list byte) (b : list byte * value) : Prop := text (fst a) = fst b /\ value_text (snd b) (snd a).
Lemma fields_ok : forall l fs, Forall2 same l fs -> l <> [] -> fields_text fs (debug_fields l).
Proof.
  induction 1 as [|[a x] [b v] l fs [E V] F IH]; intros N; [congruence|]. cbn in E, V. subst b.
  destruct F as [|q f l fs Q F].
  - cbn [debug_fields]. unfold debug_field. cbn [fst snd]. change (text ": ") with [x3a; x20]. constructor. exact V.
  - cbn [debug_fields]. unfold debug_field at 1. cbn [fst snd]. change (text ": ") with [x3a; x20]. change (text ", ") with [x2c; x20].
    rewrite <- !app_assoc. constructor; [exact V|]. apply IH. discriminate.
Qed.
Lemma struct_ok : forall name l fs, Forall2 same l fs -> l <> [] -> struct_text (text name) fs (debug_struct name l).
Proof. intros name l fs F N. unfold debug_struct. change (text " { ") with [x20; x7b; x20]. change (text " }") with [x20; x7d]. constructor. apply fields_ok; assumption. Qed.

Ltac fields := apply struct_ok; [repeat (constructor; [split; [reflexivity|first [apply hex_value|apply number_value; assumption]]|]); constructor|discriminate].

Lemma C84_text_lemma : forall H,
  (forall l r h, 0 <= h -> let n := snode_create_node H l r h in
     let fields := [(text "Height", Number h); (text "Hash", Bytes (b32 (snode_hash H n)));
                    (text "Left child key", Bytes (b32 (snode_hash H l))); (text "Right child key", Bytes (b32 (snode_hash H r)))] in
     exists t s, sparse_node_debug H n = Val t /\ storage_node_debug H n = Val s /\
       struct_text (text "Node (Internal)") fields t /\ struct_text (text "StorageNode (Internal)") fields s) /\
  (forall k d, let n := snode_create_leaf H k d in
     let fields := [(text "Height", Number 0); (text "Hash", Bytes (b32 (snode_hash H n)));
                    (text "Leaf key", Bytes (b32 k)); (text "Leaf data", Bytes (b32 (H d)))] in
     exists t s, sparse_node_debug H n = Val t /\ storage_node_debug H n = Val s /\
       struct_text (text "Node (Leaf)") fields t /\ struct_text (text "StorageNode (Leaf)") fields s) /\
  (forall pr h fl kl fr kr n, 0 <= fl -> 0 <= fr -> 0 < h -> fl + fr < 2 ^ 64 -> mnode_create_node H pr h fl kl fr kr = Val n ->
     exists t, sum_node_debug n = Val t /\
       struct_text (text "Node (Internal)") [(text "Hash", Bytes (b32 (mn_hash n))); (text "Fee", Number (fl + fr));
         (text "Left child key", Bytes (b32 kl)); (text "Right child key", Bytes (b32 kr))] t) /\
  (forall f d, 0 <= f -> let x := Bytes (b32 (mn_hash (mnode_create_leaf H f d))) in
     exists t, sum_node_debug (mnode_create_leaf H f d) = Val t /\
       struct_text (text "Node (Leaf)") [(text "Hash", x); (text "Fee", Number f); (text "Key", x)] t).
Proof.
  intros H. split; [|split; [|split]].
  - intros l r h Hh n fs. unfold sparse_node_debug, storage_node_debug, snode_debug. subst fs. generalize (snode_hash H n). intros x. subst n.
    unfold snode_left_child_key, snode_right_child_key.
    cbn [snode_is_node snode_create_node sn_prefix prefix_eqb assert obind].
    eexists. eexists. split; [reflexivity|]. split; [reflexivity|]. split; fields.
  - intros k d n fs. unfold sparse_node_debug, storage_node_debug, snode_debug. subst fs. generalize (snode_hash H n). intros x. subst n.
    unfold snode_leaf_key, snode_leaf_data, snode_is_leaf.
    cbn [snode_is_node snode_create_leaf sn_prefix prefix_eqb orb assert obind].
    assert (Z0 : 0 <= 0) by lia.
    eexists. eexists. split; [reflexivity|]. split; [reflexivity|]. split; fields.
  - intros pr h fl kl fr kr n Hl Hr Hh Hs E. unfold mnode_create_node in E.
    assert (F : 0 <= fl + fr) by lia.
    assert (Q : u64_ovf pr (fl + fr) = Val (fl + fr)) by (apply u64_ovf_in; unfold U64; lia).
    rewrite Q in E. cbn [obind] in E. apply Val_inj in E. subst n. unfold sum_node_debug.
    cbn [mn_height mn_fee mn_hash mn_left_child_key mn_right_child_key unwrap obind]. rewrite (proj2 (Z.eqb_neq h 0)) by lia. cbn [negb].
    eexists. split; [reflexivity|]. fields.
  - intros f d Hf x. unfold sum_node_debug, mnode_create_leaf. cbn [mn_height Z.eqb negb]. eexists. split; [reflexivity|]. subst x. fields.
Qed.
