(** DebugProofs.v -- the Debug texts of nodes. *)
From Verif Require Import Base ModelText ModelCommon ModelSparse ModelSum ModelDebug TextProofs.
From Coq Require Import String Decimal DecimalString DecimalFacts DecimalN.
From Coq Require Import List.

Lemma text_app : forall a b, text (a ++ b)%string = text a ++ text b.
Proof. induction a as [|c a IH]; intros b; [reflexivity|]. cbn. f_equal. apply IH. Qed.
Lemma text_inj : forall a b, text a = text b -> a = b.
Proof.
  intros a b E. assert (Q : string_of_list_byte (list_byte_of_string a) = string_of_list_byte (list_byte_of_string b)) by (unfold text in E; rewrite E; reflexivity).
  rewrite !string_of_list_byte_of_string in Q. exact Q.
Qed.

Lemma uint_no_comma : forall u, ~ In x2c (text (NilEmpty.string_of_uint u)).
Proof. induction u; cbn; intros I; [exact I|..]; (destruct I as [I|I]; [discriminate I|exact (IHu I)]). Qed.
Lemma dec_no_comma : forall z, ~ In x2c (dec z).
Proof.
  intros z. unfold dec, NilZero.string_of_uint. destruct (N.to_uint (Z.to_N z)); try apply uint_no_comma.
  cbn. intros [I|[]]. discriminate I.
Qed.
Lemma dec_inj : forall a b, 0 <= a -> 0 <= b -> dec a = dec b -> a = b.
Proof.
  intros a b Ha Hb E. unfold dec in E. apply text_inj in E.
  assert (Q : NilZero.uint_of_string (NilZero.string_of_uint (N.to_uint (Z.to_N a))) = NilZero.uint_of_string (NilZero.string_of_uint (N.to_uint (Z.to_N b)))) by (rewrite E; reflexivity).
  assert (NN : forall n, N.to_uint n <> Nil).
  { intros n C. pose proof (DecimalN.Unsigned.of_to n) as Q'. rewrite C in Q'. cbn in Q'. subst n. discriminate C. }
  rewrite !NilZero.usu in Q by apply NN. injection Q as Q. apply DecimalN.Unsigned.to_uint_inj in Q. lia.
Qed.

Lemma split_at_comma : forall a b r r', ~ In x2c a -> ~ In x2c b -> a ++ x2c :: r = b ++ x2c :: r' -> a = b /\ r = r'.
Proof.
  induction a as [|c a IH]; intros [|d b] r r' Na Nb E; cbn in E.
  - injection E as E. auto.
  - injection E as E _. exfalso. apply Nb. left. auto.
  - injection E as E _. exfalso. apply Na. left. auto.
  - injection E as -> E. destruct (IH b r r') as [-> ->]; [intros I; apply Na; right; exact I|intros I; apply Nb; right; exact I|exact E|]. auto.
Qed.
Lemma app_same : forall (a b r r' : list byte), List.length a = List.length b -> a ++ r = b ++ r' -> a = b /\ r = r'.
Proof.
  induction a as [|c a IH]; intros [|d b] r r' L E; try discriminate L; [auto|]. injection L as L. injection E as -> E.
  destruct (IH b r r' L E) as [-> ->]. auto.
Qed.
Lemma hash_field : forall (a b : bytes32) r r', hex_encode (b32 a) ++ r = hex_encode (b32 b) ++ r' -> a = b /\ r = r'.
Proof.
  intros a b r r' E. apply app_same in E; [|rewrite !hex_encode_length, !b32_length; reflexivity].
  destruct E as [E ->]. split; [|reflexivity]. apply bytes32_ext, hex_encode_inj, E.
Qed.


(** The text with its literals. *)
Definition shape (a b c d : string) (h : Z) (x y z : bytes32) : list byte :=
  text a ++ dec h ++ x2c :: text b ++ hex_encode (b32 x) ++ text c ++ hex_encode (b32 y) ++ text d ++ hex_encode (b32 z) ++ text """ }".
Lemma shape_inj : forall a b c d h x y z h' x' y' z', 0 <= h -> 0 <= h' ->
  shape a b c d h x y z = shape a b c d h' x' y' z' -> h = h' /\ x = x' /\ y = y' /\ z = z'.
Proof.
  intros a b c d h x y z h' x' y' z' Hh Hh' E. unfold shape in E. apply app_inv_head in E.
  apply split_at_comma in E; [|apply dec_no_comma|apply dec_no_comma]. destruct E as [Eh E]. apply dec_inj in Eh; [|lia|lia].
  apply app_inv_head in E. apply hash_field in E as [-> E]. apply app_inv_head in E. apply hash_field in E as [-> E].
  apply app_inv_head in E. apply hash_field in E as [-> E]. auto.
Qed.
Ltac shape_eq := unfold debug_struct, debug_fields, debug_field, quoted, shape; cbn [fst snd]; repeat rewrite <- app_assoc; cbn -[dec hex_encode]; reflexivity.

Lemma sparse_shape : forall H n, sparse_node_debug H n = Val match sn_prefix n with
  | PNode => shape "Node (Internal) { Height: " " Hash: """ """, Left child key: """ """, Right child key: """
               (sn_height n) (snode_hash H n) (sn_bytes_lo n) (sn_bytes_hi n)
  | PLeaf => shape "Node (Leaf) { Height: " " Hash: """ """, Leaf key: """ """, Leaf data: """
               (sn_height n) (snode_hash H n) (sn_bytes_lo n) (sn_bytes_hi n)
  end.
Proof.
  intros H [h p lo hi]. unfold sparse_node_debug, snode_debug, snode_left_child_key, snode_right_child_key, snode_leaf_key, snode_leaf_data, snode_is_leaf, snode_is_node.
  destruct p; cbn [sn_prefix prefix_eqb orb assert obind sn_height sn_bytes_lo sn_bytes_hi]; f_equal; generalize (snode_hash H {| sn_height := h; sn_prefix := PNode; sn_bytes_lo := lo; sn_bytes_hi := hi |});
    generalize (snode_hash H {| sn_height := h; sn_prefix := PLeaf; sn_bytes_lo := lo; sn_bytes_hi := hi |}); intros x x'; shape_eq.
Qed.
Lemma storage_shape : forall H n, storage_node_debug H n = Val match sn_prefix n with
  | PNode => shape "StorageNode (Internal) { Height: " " Hash: """ """, Left child key: """ """, Right child key: """
               (sn_height n) (snode_hash H n) (sn_bytes_lo n) (sn_bytes_hi n)
  | PLeaf => shape "StorageNode (Leaf) { Height: " " Hash: """ """, Leaf key: """ """, Leaf data: """
               (sn_height n) (snode_hash H n) (sn_bytes_lo n) (sn_bytes_hi n)
  end.
Proof.
  intros H [h p lo hi]. unfold storage_node_debug, snode_debug, snode_left_child_key, snode_right_child_key, snode_leaf_key, snode_leaf_data, snode_is_leaf, snode_is_node.
  destruct p; cbn [sn_prefix prefix_eqb orb assert obind sn_height sn_bytes_lo sn_bytes_hi]; f_equal; generalize (snode_hash H {| sn_height := h; sn_prefix := PNode; sn_bytes_lo := lo; sn_bytes_hi := hi |});
    generalize (snode_hash H {| sn_height := h; sn_prefix := PLeaf; sn_bytes_lo := lo; sn_bytes_hi := hi |}); intros x x'; shape_eq.
Qed.

Lemma Val_inj : forall A (a b : A), Val a = Val b -> a = b.
Proof. congruence. Qed.
Lemma snode_eq : forall n m, sn_height n = sn_height m -> sn_prefix n = sn_prefix m -> sn_bytes_lo n = sn_bytes_lo m -> sn_bytes_hi n = sn_bytes_hi m -> n = m.
Proof. intros [? ? ? ?] [? ? ? ?]. cbn. congruence. Qed.
Lemma C84_sparse_lemma : forall H n, 0 <= sn_height n ->
  exists t s, sparse_node_debug H n = Val t /\ storage_node_debug H n = Val s /\
  forall m, 0 <= sn_height m -> sparse_node_debug H m = Val t \/ storage_node_debug H m = Val s -> m = n.
Proof.
  intros H n Hn. rewrite sparse_shape, storage_shape. eexists. eexists. split; [reflexivity|]. split; [reflexivity|].
  intros m Hm. rewrite sparse_shape, storage_shape.
  destruct (sn_prefix n) eqn:Pn, (sn_prefix m) eqn:Pm; intros [E|E]; apply Val_inj in E; try discriminate E;
    apply shape_inj in E; try assumption; destruct E as (A & _ & B & C); apply snode_eq; congruence.
Qed.

(** Sum nodes. *)
Definition sum_shape (f : Z) (x : bytes32) (rest : list byte) : list byte :=
  hex_encode (b32 x) ++ text """, Fee: " ++ dec f ++ x2c :: rest.
Lemma sum_shape_inj : forall f x r f' x' r', 0 <= f -> 0 <= f' -> sum_shape f x r = sum_shape f' x' r' -> f = f' /\ x = x' /\ r = r'.
Proof.
  intros f x r f' x' r' Hf Hf' E. unfold sum_shape in E. apply hash_field in E as [-> E]. apply app_inv_head in E.
  apply split_at_comma in E; [|apply dec_no_comma|apply dec_no_comma]. destruct E as [Ef ->]. apply dec_inj in Ef; auto.
Qed.
Lemma sum_internal : forall h x f l r, h <> 0 ->
  sum_node_debug {| mn_height := h; mn_hash := x; mn_fee := f; mn_left_child_key := Some l; mn_right_child_key := Some r |} =
  Val (text "Node (Internal) { Hash: """ ++ sum_shape f x (text " Left child key: """ ++ hex_encode (b32 l) ++
       text """, Right child key: """ ++ hex_encode (b32 r) ++ text """ }")).
Proof.
  intros h x f l r Hh. unfold sum_node_debug. cbn [mn_height mn_hash mn_fee mn_left_child_key mn_right_child_key unwrap obind].
  rewrite (proj2 (Z.eqb_neq _ _) Hh). cbn [negb]. f_equal. unfold sum_shape. shape_eq.
Qed.
Lemma sum_leaf : forall x f l r,
  sum_node_debug {| mn_height := 0; mn_hash := x; mn_fee := f; mn_left_child_key := l; mn_right_child_key := r |} =
  Val (text "Node (Leaf) { Hash: """ ++ sum_shape f x (text " Key: """ ++ hex_encode (b32 x) ++ text """ }")).
Proof.
  intros x f l r. unfold sum_node_debug. cbn [mn_height mn_hash mn_fee Z.eqb negb]. f_equal. unfold sum_shape. shape_eq.
Qed.
Lemma C84_sum_lemma : forall h x f l r h' x' f' l' r' lf lf',
  h <> 0 -> h' <> 0 -> 0 <= f -> 0 <= f' ->
  let inner h x f l r := {| mn_height := h; mn_hash := x; mn_fee := f; mn_left_child_key := Some l; mn_right_child_key := Some r |} in
  let leaf x f := {| mn_height := 0; mn_hash := x; mn_fee := f; mn_left_child_key := None; mn_right_child_key := None |} in
  exists t s, sum_node_debug (inner h x f l r) = Val t /\ sum_node_debug (leaf x lf) = Val s /\ t <> s /\
  (sum_node_debug (inner h' x' f' l' r') = Val t <-> x' = x /\ f' = f /\ l' = l /\ r' = r) /\
  (0 <= lf -> 0 <= lf' -> sum_node_debug (leaf x' lf') = Val s <-> x' = x /\ lf' = lf).
Proof.
  intros h x f l r h' x' f' l' r' lf lf' Hh Hh' Hf Hf'. cbv beta zeta. rewrite !sum_internal, !sum_leaf by assumption.
  eexists. eexists. split; [reflexivity|]. split; [reflexivity|]. split; [discriminate|]. split.
  - split; [|intros (-> & -> & -> & ->); reflexivity]. intros E.
    assert (Q : sum_shape f' x' (text " Left child key: """ ++ hex_encode (b32 l') ++ text """, Right child key: """ ++ hex_encode (b32 r') ++ text """ }") =
                sum_shape f x (text " Left child key: """ ++ hex_encode (b32 l) ++ text """, Right child key: """ ++ hex_encode (b32 r) ++ text """ }")).
    { apply (app_inv_head (text "Node (Internal) { Hash: """)). congruence. }
    apply sum_shape_inj in Q; [|assumption|assumption]. destruct Q as (-> & -> & Q). apply app_inv_head in Q.
    apply hash_field in Q as [-> Q]. apply app_inv_head in Q. apply hash_field in Q as [-> Q]. auto.
  - intros Hl Hl'. split; [|intros (-> & ->); reflexivity]. intros E.
    assert (Q : sum_shape lf' x' (text " Key: """ ++ hex_encode (b32 x') ++ text """ }") = sum_shape lf x (text " Key: """ ++ hex_encode (b32 x) ++ text """ }")).
    { apply (app_inv_head (text "Node (Leaf) { Hash: """)). congruence. }
    apply sum_shape_inj in Q; [|assumption|assumption]. destruct Q as (-> & -> & Q). auto.
Qed.
