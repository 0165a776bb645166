(** ModelBinary.v -- model of /repo/src/binary/: hash.rs, node.rs, primitive.rs,
    merkle_tree.rs, in_memory.rs. *)
From Verif Require Import Base Storage ModelCommon.

(** binary/node.rs:9-12 *)
Record BNode : Type := { bn_position : Z; bn_hash : bytes32 }.

(** binary/primitive.rs:6 *)
Definition BPrimitive : Type := (Z * bytes32)%type.

(** binary/primitive.rs:23-27 *)
Definition bprim_of_node (n : BNode) : BPrimitive := (bn_position n, bn_hash n).
(** binary/primitive.rs:29-35 *)
Definition bnode_of_prim (p : BPrimitive) : BNode :=
  {| bn_position := fst p; bn_hash := snd p |}.

(** binary/merkle_tree.rs:14-26 *)
Inductive BError (E : Type) :=
| BInvalidProofIndex (i : Z)
| BLoadError (k : Z)
| BStorageError (e : E).
Arguments BInvalidProofIndex {E} i.
Arguments BLoadError {E} k.
Arguments BStorageError {E} e.

(** binary/merkle_tree.rs:35-40 *)
Record BTree (S : Type) : Type := {
  bt_storage : S;
  bt_head : list BNode;
  bt_leaves_count : Z
}.
Arguments Build_BTree {S} _ _ _.
Arguments bt_storage {S} _.
Arguments bt_head {S} _.
Arguments bt_leaves_count {S} _.

Section Binary.
(** SHA-256, a parameter *)
Variable H : list byte -> bytes32.
Variable pr : profile.

(** binary/hash.rs:16-24 *)
Definition node_sum (lhs rhs : list byte) : bytes32 :=
  H (prefix_byte PNode :: lhs ++ rhs).
(** binary/hash.rs:28-35 *)
Definition leaf_sum (data : list byte) : bytes32 := H (prefix_byte PLeaf :: data).

(** binary/node.rs:19-23 *)
Definition bnode_create_leaf (index : Z) (data : list byte) : out BNode :=
  position <-! pos_from_leaf_index pr index ;;
  Val {| bn_position := position; bn_hash := leaf_sum data |}.

(** binary/node.rs:25-29 *)
Definition bnode_create_node (left_child right_child : BNode) : out BNode :=
  position <-! pos_parent pr (bn_position left_child) ;;
  Val {| bn_position := position;
         bn_hash := node_sum (bn_hash left_child) (bn_hash right_child) |}.

(** The scratch storage, [StorageMap<NodesTable>] (merkle_tree.rs:73,110) *)
Definition Scratch : Type := @smap Z BPrimitive.

(** merkle_tree.rs:345-358; the list of subtrees is [current :: next] *)
Fixpoint build_root_node (current : BNode) (next : list BNode) (scratch : Scratch)
  : out (BNode * Scratch) :=
  match next with
  | [] => Val (current, scratch)
  | head_next :: next' =>
      joined <-! bnode_create_node head_next current ;;
      build_root_node joined next'
        (fst (smap_insert Z.eqb (bn_position joined) (bprim_of_node joined) scratch))
  end.

(** merkle_tree.rs:283-287 *)
Definition bt_root_node {S} (t : BTree S) (scratch : Scratch)
  : out (option BNode * Scratch) :=
  match bt_head t with
  | [] => Val (None, scratch)
  | head :: next =>
      '(n, scratch') <-! build_root_node head next scratch ;; Val (Some n, scratch')
  end.

(** merkle_tree.rs:72-79 ([&self], no storage access) *)
Definition bt_root {S} (t : BTree S) : out bytes32 :=
  '(root_node, _) <-! bt_root_node t smap_new ;;
  match root_node with
  | None => Val empty_sum
  | Some node => Val (bn_hash node)
  end.

(** [u64::next_power_of_two]: panics on overflow in debug builds, 0 in release *)
Definition next_power_of_two (n : Z) : out Z :=
  if n <=? 1 then Val 1 else u64_ovf pr (2 ^ Z.log2_up n).

(** merkle_tree.rs:254-264 *)
Definition bt_root_position (leaves_count : Z) : out Z :=
  leaves_count' <-! u64_ovf pr (leaves_count + 1) ;;
  np <-! next_power_of_two leaves_count' ;;
  u64_ovf pr (np - 1).

(** merkle_tree.rs:237-252 *)
Definition bt_peak_positions (leaves_count0 : Z) : out (list Z) :=
  leaves_count <-! u64_ovf pr (leaves_count0 + 1) ;;
  last <-! u64_ovf pr (leaves_count - 1) ;;
  leaf_position <-! pos_from_leaf_index pr last ;;
  root_position <-! bt_root_position leaves_count0 ;;
  it <-! position_path_iter_new pr root_position leaf_position leaves_count ;;
  '(_, it') <-! position_path_next pr it ;;          (* Omit the root *)
  peaks <-! position_path_collect pr 66 it' ;;
  Val (map snd peaks).

Section WithStorage.
Context {S E : Type}.
Variable st : StorageT S Z BPrimitive E.

Definition bst_get (k : Z) : M S (result (BError E) (option BPrimitive)) :=
  fun s => match s_get st k s with
           | (s', Ok v) => (s', Val (Ok v))
           | (s', Err e) => (s', Val (Err (BStorageError e)))
           end.

(** a storage insert on the tree's storage field, with [?] *)
Definition bt_insert (k : Z) (v : BPrimitive) : M (BTree S) (result (BError E) unit) :=
  fun t => match s_insert st k v (bt_storage t) with
           | (s', Ok _) => (Build_BTree s' (bt_head t) (bt_leaves_count t), Val (Ok tt))
           | (s', Err e) =>
               (Build_BTree s' (bt_head t) (bt_leaves_count t), Val (Err (BStorageError e)))
           end.

(** a storage get on the tree's storage field, with [?] *)
Definition bt_get (k : Z) : M (BTree S) (result (BError E) (option BPrimitive)) :=
  fun t => let '(s', r) := bst_get k (bt_storage t) in
           (Build_BTree s' (bt_head t) (bt_leaves_count t), r).

Definition bt_set_head (h : list BNode) : M (BTree S) unit :=
  fun t => (Build_BTree (bt_storage t) h (bt_leaves_count t), Val tt).
Definition bt_set_leaves_count (n : Z) : M (BTree S) unit :=
  fun t => (Build_BTree (bt_storage t) (bt_head t) n, Val tt).

(** merkle_tree.rs:47-54 *)
Definition bt_new (s : S) : BTree S := Build_BTree s [] 0.

(** merkle_tree.rs:217-235, the loop; [current_head] as a list *)
Fixpoint bt_build_loop (peaks : list Z) (current_head : list BNode)
  : M S (result (BError E) (list BNode)) :=
  match peaks with
  | [] => ret (Ok current_head)
  | key :: peaks' =>
      o <-? bst_get key ;;
      match o with
      | None => ret (Err (BLoadError key))
      | Some prim => bt_build_loop peaks' (bnode_of_prim prim :: current_head)
      end
  end.

(** merkle_tree.rs:56-70 and build (217-235).  The storage state is returned beside
    the result, because the caller may own the storage ([StorageType] can be a
    reference). *)
Definition bt_load (n : Z) : M S (result (BError E) (BTree S)) :=
  peaks <- lift (bt_peak_positions n) ;;
  head <-? bt_build_loop peaks [] ;;
  s <- get_state ;;
  ret (Ok (Build_BTree s head n)).

(** merkle_tree.rs:312-337.  The model's loop bound is the length of the list of
    subtrees, which shrinks in every iteration. *)
Fixpoint bt_join_all_subtrees_loop (fuel : nat) : M (BTree S) (result (BError E) unit) :=
  match fuel with
  | O => fuel_out
  | Datatypes.S f =>
      t <- get_state ;;
      match bt_head t with
      | [] => panic                                   (* unwrap on None *)
      | [_] => ret (Ok tt)
      | head :: head_next :: next =>
          if pos_height (bn_position head) =? pos_height (bn_position head_next) then
            _ <- bt_set_head [] ;;                    (* head.take() *)
            joined <- lift (bnode_create_node head_next head) ;;
            _ <-? bt_insert (bn_position joined) (bprim_of_node joined) ;;
            _ <- bt_set_head (joined :: next) ;;
            bt_join_all_subtrees_loop f
          else ret (Ok tt)
      end
  end.

Definition bt_join_all_subtrees : M (BTree S) (result (BError E) unit) :=
  t <- get_state ;;
  bt_join_all_subtrees_loop (length (bt_head t)).

(** merkle_tree.rs:295-306 *)
Definition bt_push (data : list byte) : M (BTree S) (result (BError E) unit) :=
  t <- get_state ;;
  node <- lift (bnode_create_leaf (bt_leaves_count t) data) ;;
  _ <-? bt_insert (bn_position node) (bprim_of_node node) ;;
  t <- get_state ;;
  _ <- bt_set_head (node :: bt_head t) ;;
  _ <-? bt_join_all_subtrees ;;
  t <- get_state ;;
  n <- lift (u64_ovf pr (bt_leaves_count t + 1)) ;;
  _ <- bt_set_leaves_count n ;;
  ret (Ok tt).

(** merkle_tree.rs:119-127, the loop over side positions.  The storage is queried
    even when the scratch storage has the node ([.or(get?)] evaluates its argument). *)
Fixpoint bt_prove_loop (scratch : Scratch) (side_positions : list Z) (proof_set : list bytes32)
  : M (BTree S) (result (BError E) (list bytes32)) :=
  match side_positions with
  | [] => ret (Ok proof_set)
  | key :: side_positions' =>
      stored <-? bt_get key ;;
      match (match smap_lookup Z.eqb scratch key with Some p => Some p | None => stored end) with
      | None => ret (Err (BLoadError key))
      | Some prim =>
          bt_prove_loop scratch side_positions' (proof_set ++ [bn_hash (bnode_of_prim prim)])
      end
  end.

(** merkle_tree.rs:81-131.  [&self]: only the storage's own state may change. *)
Definition bt_prove (proof_index : Z)
  : M (BTree S) (result (BError E) (bytes32 * list bytes32)) :=
  t <- get_state ;;
  succ <- lift (u64_ovf pr (proof_index + 1)) ;;
  if succ >? bt_leaves_count t then ret (Err (BInvalidProofIndex proof_index))
  else
    root_position <- lift (bt_root_position (bt_leaves_count t)) ;;
    leaf_position <- lift (pos_from_leaf_index pr proof_index) ;;
    o <-? bt_get leaf_position ;;
    match o with
    | None => ret (Err (BLoadError proof_index))
    | Some prim =>
        path <- lift (position_path pr root_position leaf_position (bt_leaves_count t)) ;;
        (* reverse, then pop the last: the root *)
        let side_positions := removelast (rev (map snd path)) in
        '(root_node, scratch) <- lift (bt_root_node t smap_new) ;;
        match root_node with
        | None => panic                               (* expect("Root node must be present") *)
        | Some root_node =>
            proof_set <-? bt_prove_loop scratch side_positions [bn_hash (bnode_of_prim prim)] ;;
            ret (Ok (bn_hash root_node, proof_set))
        end
    end.
End WithStorage.

(** binary/in_memory.rs:18-43 *)
Definition BStorageMap : StorageT Scratch Z BPrimitive Empty_set := StorageMap Z.eqb.

(** in_memory.rs:26-30 *)
Definition bim_new : BTree Scratch := bt_new smap_new.
(** in_memory.rs:32-34: the result is dropped *)
Definition bim_push (data : list byte) : M (BTree Scratch) unit :=
  _ <- bt_push BStorageMap data ;; ret tt.
(** in_memory.rs:36-38 *)
Definition bim_root : M (BTree Scratch) bytes32 :=
  t <- get_state ;; lift (bt_root t).
(** in_memory.rs:40-42 *)
Definition bim_prove (i : Z) : M (BTree Scratch) (option (bytes32 * list bytes32)) :=
  r <- bt_prove BStorageMap i ;;
  match r with Ok x => ret (Some x) | Err _ => ret None end.
End Binary.
