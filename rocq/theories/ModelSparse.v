(** ModelSparse.v -- model of /repo/src/sparse/: hash.rs, node.rs, primitive.rs,
    merkle_tree.rs, in_memory.rs. *)
From Verif Require Import Base Storage ModelText ModelCommon.

(** sparse/node.rs:18-23; [height] is a u32 *)
Record SNode : Type := {
  sn_height : Z;
  sn_prefix : Prefix;
  sn_bytes_lo : bytes32;
  sn_bytes_hi : bytes32
}.

(** sparse/primitive.rs:24: (height, prefix byte, lo, hi) *)
Definition SPrimitive : Type := (Z * byte * bytes32 * bytes32)%type.

(** sparse/primitive.rs:51-60 *)
Definition sprim_of_node (n : SNode) : SPrimitive :=
  (sn_height n, prefix_byte (sn_prefix n), sn_bytes_lo n, sn_bytes_hi n).

(** sparse/primitive.rs:62-73, with prefix() 38-40 *)
Definition snode_try_from (p : SPrimitive) : result DeserializeError SNode :=
  match p with
  | (height, prefix, lo, hi) =>
      match prefix_try_from prefix with
      | Ok pf => Ok {| sn_height := height; sn_prefix := pf; sn_bytes_lo := lo; sn_bytes_hi := hi |}
      | Err e => Err (DPrefixError e)
      end
  end.

(** sparse/node.rs:280-285 *)
Inductive StorageNodeError (E : Type) :=
| SNStorageError (e : E)
| SNDeserializeError (e : DeserializeError).
Arguments SNStorageError {E} e.
Arguments SNDeserializeError {E} e.

Definition SChildError (E : Type) : Type := ChildError bytes32 (StorageNodeError E).

(** sparse/merkle_tree.rs:12-27.  The text of [LoadError(String)] is the list of its bytes. *)
Inductive SError (E : Type) :=
| SLoadError (root_text : list byte)
| SStorageError (e : E)
| SDeserializeError (e : DeserializeError)
| SChildErr (e : SChildError E).
Arguments SLoadError {E} root_text.
Arguments SStorageError {E} e.
Arguments SDeserializeError {E} e.
Arguments SChildErr {E} e.

(** sparse/merkle_tree.rs:36-40 *)
Record SpTree (S : Type) : Type := { sp_root_node : SNode; sp_storage : S }.
Arguments Build_SpTree {S} _ _.
Arguments sp_root_node {S} _.
Arguments sp_storage {S} _.

(** sparse/hash.rs:8-12 *)
Definition zero_sum : bytes32 := zero32.

(** sparse/node.rs:25-34,95-97 *)
Definition snode_placeholder : SNode :=
  {| sn_height := 0; sn_prefix := PLeaf; sn_bytes_lo := zero_sum; sn_bytes_hi := zero_sum |}.

(** sparse/node.rs:37-39 with common/node.rs:6-8: 32 bytes of key *)
Definition max_height : Z := 256.

(** sparse/node.rs:158-160 *)
Definition snode_is_placeholder (n : SNode) : bool :=
  b32_eqb (sn_bytes_lo n) zero_sum && b32_eqb (sn_bytes_hi n) zero_sum.

(** sparse/node.rs:130-132 *)
Definition snode_is_leaf (n : SNode) : bool :=
  prefix_eqb (sn_prefix n) PLeaf || snode_is_placeholder n.

(** sparse/node.rs:134-136 *)
Definition snode_is_node (n : SNode) : bool := prefix_eqb (sn_prefix n) PNode.

(** sparse/node.rs:138-141 *)
Definition snode_leaf_key (n : SNode) : out bytes32 :=
  _ <-! assert (snode_is_leaf n) ;; Val (sn_bytes_lo n).

(** sparse/node.rs:148-156 *)
Definition snode_left_child_key (n : SNode) : out bytes32 :=
  _ <-! assert (snode_is_node n) ;; Val (sn_bytes_lo n).
Definition snode_right_child_key (n : SNode) : out bytes32 :=
  _ <-! assert (snode_is_node n) ;; Val (sn_bytes_hi n).

Section Sparse.
(** SHA-256, a parameter *)
Variable H : list byte -> bytes32.
Variable pr : profile.

(** sparse/hash.rs:14-21 *)
Definition sum (data : list byte) : bytes32 := H data.
(** sparse/hash.rs:23-33 *)
Definition sum_all (data : list (list byte)) : bytes32 := H (concat data).

(** sparse/node.rs:162-173 *)
Definition snode_hash (n : SNode) : bytes32 :=
  if snode_is_placeholder n then zero_sum
  else sum_all [[prefix_byte (sn_prefix n)]; b32 (sn_bytes_lo n); b32 (sn_bytes_hi n)].

(** sparse/node.rs:50-57 *)
Definition snode_create_leaf (key : bytes32) (data : list byte) : SNode :=
  {| sn_height := 0; sn_prefix := PLeaf; sn_bytes_lo := key; sn_bytes_hi := sum data |}.

(** sparse/node.rs:59-66 *)
Definition snode_create_node (left_child right_child : SNode) (height : Z) : SNode :=
  {| sn_height := height; sn_prefix := PNode;
     sn_bytes_lo := snode_hash left_child; sn_bytes_hi := snode_hash right_child |}.

(** sparse/node.rs:99-112 *)
Definition snode_common_path_length (a b : SNode) : out Z :=
  _ <-! debug_assert pr (snode_is_leaf a) ;;
  _ <-! debug_assert pr (snode_is_leaf b) ;;
  if snode_is_placeholder a || snode_is_placeholder b then Val 0
  else
    ka <-! snode_leaf_key a ;;
    kb <-! snode_leaf_key b ;;
    common_prefix_count ka kb.

(** the common match of sparse/node.rs:77-80 and 88-91 *)
Definition join_by_instruction (path : bytes32) (parent_depth : Z)
    (path_node side_node : SNode) (parent_height : Z) : out SNode :=
  match get_instruction path parent_depth with
  | None => Panic                                     (* unwrap on None *)
  | Some ILeft => Val (snode_create_node path_node side_node parent_height)
  | Some IRight => Val (snode_create_node side_node path_node parent_height)
  end.

(** sparse/node.rs:68-93.  [(256 - depth) as u32] cannot truncate. *)
Definition snode_create_node_on_path (path : bytes32) (path_node side_node : SNode)
  : out SNode :=
  if snode_is_leaf path_node && snode_is_leaf side_node then
    parent_depth <-! snode_common_path_length path_node side_node ;;
    parent_height <-! usize_ovf pr (max_height - parent_depth) ;;
    join_by_instruction path parent_depth path_node side_node parent_height
  else
    parent_height <-! u32_ovf pr (Z.max (sn_height path_node) (sn_height side_node) + 1) ;;
    parent_depth <-! usize_ovf pr (max_height - parent_height) ;;
    join_by_instruction path parent_depth path_node side_node parent_height.

(** sparse/merkle_tree.rs:122-124 *)
Definition sp_root {S} (t : SpTree S) : bytes32 := snode_hash (sp_root_node t).

Section WithStorage.
Context {S E : Type}.
Variable st : StorageT S bytes32 SPrimitive E.

(** The common part of sparse/node.rs:295-313 and 315-333 *)
Definition read_child (key : bytes32) : M S (result (SChildError E) SNode) :=
  if b32_eqb key zero_sum then ret (Ok snode_placeholder)
  else fun s =>
    match s_get st key s with
    | (s', Err e) => (s', Val (Err (ChildErr (SNStorageError e))))
    | (s', Ok None) => (s', Val (Err (ChildNotFound key)))
    | (s', Ok (Some primitive)) =>
        match snode_try_from primitive with
        | Ok node => (s', Val (Ok node))
        | Err e => (s', Val (Err (ChildErr (SNDeserializeError e))))
        end
    end.

(** sparse/node.rs:295-313 *)
Definition storage_node_left_child (n : SNode) : M S (result (SChildError E) SNode) :=
  if snode_is_leaf n then ret (Err NodeIsLeaf)
  else key <- lift (snode_left_child_key n) ;; read_child key.

(** sparse/node.rs:315-333 *)
Definition storage_node_right_child (n : SNode) : M S (result (SChildError E) SNode) :=
  if snode_is_leaf n then ret (Err NodeIsLeaf)
  else key <- lift (snode_right_child_key n) ;; read_child key.

(** sparse/node.rs:222-334: [StorageNode], a node together with a reference to the
    storage; the reference is the state of the monad. *)
Definition StorageNode : ParentNode S SNode (SChildError E) := {|
  pn_key_size_in_bits := max_height;
  pn_height := sn_height;
  pn_leaf_key := fun n => k <-! snode_leaf_key n ;; Val (b32 k);
  pn_is_node := snode_is_node;
  pn_left_child := storage_node_left_child;
  pn_right_child := storage_node_right_child
|}.

(** sparse/merkle_tree.rs:144-152: iterate, convert errors, stop at the first error.
    The model's loop bound is 258: the iterator yields at most 257 items. *)
Fixpoint path_set_collect (fuel : nat) (it : PathIter SNode (SChildError E))
  : M S (result (SError E) (list (SNode * SNode))) :=
  match fuel with
  | O => fuel_out
  | Datatypes.S f =>
      '(item, it') <- path_iter_next StorageNode it ;;
      match item with
      | None => ret (Ok [])
      | Some (path_node, side_node) =>
          match path_node with
          | Err e => ret (Err (SChildErr e))
          | Ok path_node =>
              match side_node with
              | Err e => ret (Err (SChildErr e))
              | Ok side_node =>
                  rest <-? path_set_collect f it' ;;
                  ret (Ok ((path_node, side_node) :: rest))
              end
          end
      end
  end.

(** sparse/merkle_tree.rs:137-161 *)
Definition path_set (root_node leaf_node : SNode)
  : M S (result (SError E) (list SNode * list SNode)) :=
  it <- lift (path_iter_new pr StorageNode root_node leaf_node) ;;
  items <-? path_set_collect 258 it ;;
  let path_nodes := rev (map fst items) in
  let side_nodes := removelast (rev (map snd items)) in
  ret (Ok (path_nodes, side_nodes)).

(** running a storage computation on the storage field of the tree *)
Definition on_storage {A} (m : M S A) : M (SpTree S) A :=
  fun t => let '(s', r) := m (sp_storage t) in (Build_SpTree (sp_root_node t) s', r).

Definition sst_get (k : bytes32) : M S (result (SError E) (option SPrimitive)) :=
  fun s => match s_get st k s with
           | (s', Ok v) => (s', Val (Ok v))
           | (s', Err e) => (s', Val (Err (SStorageError e)))
           end.
Definition sst_insert (k : bytes32) (v : SPrimitive) : M S (result (SError E) unit) :=
  fun s => match s_insert st k v s with
           | (s', Ok _) => (s', Val (Ok tt))
           | (s', Err e) => (s', Val (Err (SStorageError e)))
           end.
Definition sst_remove (k : bytes32) : M S (result (SError E) unit) :=
  fun s => match s_remove st k s with
           | (s', Ok _) => (s', Val (Ok tt))
           | (s', Err e) => (s', Val (Err (SStorageError e)))
           end.

(** sparse/merkle_tree.rs:132-135 *)
Definition sp_set_root_node (node : SNode) : M (SpTree S) unit :=
  _ <- lift (debug_assert pr (snode_is_leaf node || (sn_height node =? max_height))) ;;
  t <- get_state ;;
  put_state (Build_SpTree node (sp_storage t)).

(** one step of the rebuilding loops, sparse/merkle_tree.rs:198-200, 209-211, 217-219,
    273-275, 282-284: join with a side node and store the result *)
Definition join_and_store (path : bytes32) (current_node side_node : SNode)
  : M S (result (SError E) SNode) :=
  current_node' <- lift (snode_create_node_on_path path current_node side_node) ;;
  _ <-? sst_insert (snode_hash current_node') (sprim_of_node current_node') ;;
  ret (Ok current_node').

(** the for loops of sparse/merkle_tree.rs:208-212, 216-220, 281-285 *)
Fixpoint merge_side_nodes (path : bytes32) (current_node : SNode) (side_nodes : list SNode)
  : M S (result (SError E) SNode) :=
  match side_nodes with
  | [] => ret (Ok current_node)
  | side_node :: side_nodes' =>
      current_node' <-? join_and_store path current_node side_node ;;
      merge_side_nodes path current_node' side_nodes'
  end.

(** sparse/merkle_tree.rs:163-225 *)
Definition update_with_path_set (requested_leaf_node : SNode)
    (path_nodes side_nodes : list SNode) : M (SpTree S) (result (SError E) unit) :=
  path <- lift (snode_leaf_key requested_leaf_node) ;;
  match path_nodes with
  | [] => panic                                       (* path_nodes[0] *)
  | actual_leaf_node :: _ =>
      actual_key <- lift (snode_leaf_key actual_leaf_node) ;;
      current_node <-?
        (if negb (b32_eqb path actual_key) then
           current_node <-?
             (if negb (snode_is_placeholder actual_leaf_node)
              then on_storage (join_and_store path requested_leaf_node actual_leaf_node)
              else ret (Ok requested_leaf_node)) ;;
           ancestor_depth <- lift (snode_common_path_length requested_leaf_node actual_leaf_node) ;;
           let stale_depth := Z.max (Z.of_nat (length side_nodes)) ancestor_depth in
           let placeholders_count := stale_depth - Z.of_nat (length side_nodes) in
           on_storage (merge_side_nodes path current_node
                         (repeat snode_placeholder (Z.to_nat placeholders_count)))
         else ret (Ok requested_leaf_node)) ;;
      current_node <-? on_storage (merge_side_nodes path current_node side_nodes) ;;
      _ <- sp_set_root_node current_node ;;
      ret (Ok tt)
  end.

(** sparse/merkle_tree.rs:233-235 *)
Fixpoint remove_path_nodes (path_nodes : list SNode) : M S (result (SError E) unit) :=
  match path_nodes with
  | [] => ret (Ok tt)
  | node :: path_nodes' =>
      _ <-? sst_remove (snode_hash node) ;; remove_path_nodes path_nodes'
  end.

(** [Iterator::find], sparse/merkle_tree.rs:270-271: the found element and the rest *)
Fixpoint find_non_placeholder (l : list SNode) : option SNode * list SNode :=
  match l with
  | [] => (None, [])
  | n :: l' => if negb (snode_is_placeholder n) then (Some n, l') else find_non_placeholder l'
  end.

(** sparse/merkle_tree.rs:227-290 *)
Definition delete_with_path_set (requested_leaf_node : SNode)
    (path_nodes side_nodes : list SNode) : M (SpTree S) (result (SError E) unit) :=
  _ <-? on_storage (remove_path_nodes path_nodes) ;;
  path <- lift (snode_leaf_key requested_leaf_node) ;;
  '(current_node, side_nodes_iter) <-?
    (match side_nodes with
     | first_side_node :: rest =>
         if snode_is_leaf first_side_node then
           match find_non_placeholder rest with
           | (Some side_node, rest') =>
               current_node <-? on_storage (join_and_store path first_side_node side_node) ;;
               ret (Ok (current_node, rest'))
           | (None, rest') => ret (Ok (first_side_node, rest'))
           end
         else ret (Ok (snode_placeholder, side_nodes))
     | [] => ret (Ok (snode_placeholder, []))
     end) ;;
  current_node <-? on_storage (merge_side_nodes path current_node side_nodes_iter) ;;
  _ <- sp_set_root_node current_node ;;
  ret (Ok tt).

(** sparse/merkle_tree.rs:48-54 *)
Definition sp_new (s : S) : SpTree S := Build_SpTree snode_placeholder s.

(** sparse/merkle_tree.rs:56-72; the storage state is returned beside the result *)
Definition sp_load (root : bytes32) : M S (result (SError E) (SpTree S)) :=
  o <-? sst_get root ;;
  match o with
  | None => ret (Err (SLoadError (hex_encode (b32 root))))
  | Some primitive =>
      match snode_try_from primitive with
      | Err e => ret (Err (SDeserializeError e))
      | Ok root_node => s <- get_state ;; ret (Ok (Build_SpTree root_node s))
      end
  end.

(** sparse/merkle_tree.rs:102-120 *)
Definition sp_delete (key : bytes32) : M (SpTree S) (result (SError E) unit) :=
  t <- get_state ;;
  if b32_eqb (sp_root t) zero_sum then ret (Ok tt)
  else
    o <-? on_storage (sst_get key) ;;
    match o with
    | None => ret (Ok tt)
    | Some primitive =>
        match snode_try_from primitive with
        | Err e => ret (Err (SDeserializeError e))
        | Ok leaf_node =>
            '(path_nodes, side_nodes) <-? on_storage (path_set (sp_root_node t) leaf_node) ;;
            delete_with_path_set leaf_node path_nodes side_nodes
        end
    end.

(** sparse/merkle_tree.rs:74-100 *)
Definition sp_update (key : bytes32) (data : list byte) : M (SpTree S) (result (SError E) unit) :=
  match data with
  | [] => _ <-? sp_delete key ;; ret (Ok tt)
  | _ :: _ =>
      let leaf_node := snode_create_leaf key data in
      _ <-? on_storage (sst_insert (snode_hash leaf_node) (sprim_of_node leaf_node)) ;;
      leaf_key <- lift (snode_leaf_key leaf_node) ;;
      _ <-? on_storage (sst_insert leaf_key (sprim_of_node leaf_node)) ;;
      t <- get_state ;;
      if snode_is_placeholder (sp_root_node t) then
        _ <- sp_set_root_node leaf_node ;; ret (Ok tt)
      else
        '(path_nodes, side_nodes) <-? on_storage (path_set (sp_root_node t) leaf_node) ;;
        update_with_path_set leaf_node path_nodes side_nodes
  end.
End WithStorage.

(** sparse/in_memory.rs:18-43 *)
Definition SScratch : Type := @smap bytes32 SPrimitive.
Definition SStorageMap : StorageT SScratch bytes32 SPrimitive Empty_set := StorageMap b32_eqb.

(** in_memory.rs:26-30 *)
Definition sim_new : SpTree SScratch := sp_new smap_new.
(** in_memory.rs:32-34: the result is dropped *)
Definition sim_update (key : bytes32) (data : list byte) : M (SpTree SScratch) unit :=
  _ <- sp_update SStorageMap key data ;; ret tt.
(** in_memory.rs:36-38 *)
Definition sim_delete (key : bytes32) : M (SpTree SScratch) unit :=
  _ <- sp_delete SStorageMap key ;; ret tt.
(** in_memory.rs:40-42 *)
Definition sim_root (t : SpTree SScratch) : bytes32 := sp_root t.
End Sparse.
