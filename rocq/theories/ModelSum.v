(** ModelSum.v -- model of /repo/src/sum/: hash.rs, node.rs, merkle_tree.rs. *)
From Verif Require Import Base Storage ModelCommon.

(** sum/node.rs:6-12; [height] is a u32, [fee] a u64 *)
Record MNode : Type := {
  mn_height : Z;
  mn_hash : bytes32;
  mn_fee : Z;
  mn_left_child_key : option bytes32;
  mn_right_child_key : option bytes32
}.

(** sum/merkle_tree.rs:41-45 *)
Record MTree (S : Type) : Type := { mt_storage : S; mt_head : list MNode }.
Arguments Build_MTree {S} _ _.
Arguments mt_storage {S} _.
Arguments mt_head {S} _.

Section Sum.
(** SHA-256, a parameter *)
Variable H : list byte -> bytes32.
Variable pr : profile.

(** sum/hash.rs:14-22 *)
Definition sum_node_sum (lhs_fee : Z) (lhs_data : list byte) (rhs_fee : Z) (rhs_data : list byte)
  : bytes32 :=
  H (prefix_byte PNode :: u64_to_be_bytes lhs_fee ++ lhs_data ++ u64_to_be_bytes rhs_fee ++ rhs_data).
(** sum/hash.rs:26-32 *)
Definition sum_leaf_sum (fee : Z) (data : list byte) : bytes32 :=
  H (prefix_byte PLeaf :: u64_to_be_bytes fee ++ data).

(** sum/node.rs:15-23 *)
Definition mnode_create_leaf (fee : Z) (data : list byte) : MNode :=
  {| mn_height := 0; mn_hash := sum_leaf_sum fee data; mn_fee := fee;
     mn_left_child_key := None; mn_right_child_key := None |}.

(** sum/node.rs:25-39 *)
Definition mnode_create_node (height lhs_fee : Z) (lhs_key : bytes32) (rhs_fee : Z)
    (rhs_key : bytes32) : out MNode :=
  fee <-! u64_ovf pr (lhs_fee + rhs_fee) ;;
  Val {| mn_height := height;
         mn_hash := sum_node_sum lhs_fee lhs_key rhs_fee rhs_key;
         mn_fee := fee;
         mn_left_child_key := Some lhs_key;
         mn_right_child_key := Some rhs_key |}.

Section WithStorage.
Context {S E : Type}.
Variable st : StorageT S bytes32 MNode E.

Definition mt_insert (k : bytes32) (v : MNode) : M (MTree S) (result E unit) :=
  fun t => match s_insert st k v (mt_storage t) with
           | (s', Ok _) => (Build_MTree s' (mt_head t), Val (Ok tt))
           | (s', Err e) => (Build_MTree s' (mt_head t), Val (Err e))
           end.
Definition mt_set_head (h : list MNode) : M (MTree S) unit :=
  fun t => (Build_MTree (mt_storage t) h, Val tt).

(** sum/merkle_tree.rs:53-59 *)
Definition mt_new (s : S) : MTree S := Build_MTree s [].

(** sum/merkle_tree.rs:125-143; [lhs]'s rest of the list is handled by the callers *)
Definition mt_join_subtrees (lhs rhs : MNode) : M (MTree S) (result E MNode) :=
  height <- lift (u32_ovf pr (mn_height lhs + 1)) ;;
  joined_node <- lift (mnode_create_node height (mn_fee lhs) (mn_hash lhs) (mn_fee rhs) (mn_hash rhs)) ;;
  _ <-? mt_insert (mn_hash joined_node) joined_node ;;
  ret (Ok joined_node).

(** sum/merkle_tree.rs:91-97; the cloned list is [current :: next] *)
Fixpoint mt_root_node_loop (current : MNode) (next : list MNode) : M (MTree S) (result E MNode) :=
  match next with
  | [] => ret (Ok current)
  | head_next :: next' =>
      joined <-? mt_join_subtrees head_next current ;;
      mt_root_node_loop joined next'
  end.

(** sum/merkle_tree.rs:87-102 *)
Definition mt_root_node : M (MTree S) (result E (option MNode)) :=
  t <- get_state ;;
  match mt_head t with
  | [] => ret (Ok None)
  | initial :: next =>
      n <-? mt_root_node_loop initial next ;; ret (Ok (Some n))
  end.

(** sum/merkle_tree.rs:61-69 *)
Definition mt_root : M (MTree S) (result E (Z * bytes32)) :=
  root_node <-? mt_root_node ;;
  match root_node with
  | None => ret (Ok (0, empty_sum))
  | Some node => ret (Ok (mn_fee node, mn_hash node))
  end.

(** sum/merkle_tree.rs:104-123.  The model's loop bound is the length of the list. *)
Fixpoint mt_join_all_subtrees_loop (fuel : nat) : M (MTree S) (result E unit) :=
  match fuel with
  | O => fuel_out
  | Datatypes.S f =>
      t <- get_state ;;
      match mt_head t with
      | [] => panic                                   (* unwrap on None *)
      | [_] => ret (Ok tt)
      | head :: head_next :: next =>
          if mn_height head =? mn_height head_next then
            _ <- mt_set_head [] ;;                    (* head.take() *)
            joined <-? mt_join_subtrees head_next head ;;
            _ <- mt_set_head (joined :: next) ;;
            mt_join_all_subtrees_loop f
          else ret (Ok tt)
      end
  end.

Definition mt_join_all_subtrees : M (MTree S) (result E unit) :=
  t <- get_state ;;
  mt_join_all_subtrees_loop (length (mt_head t)).

(** sum/merkle_tree.rs:71-81 *)
Definition mt_push (fee : Z) (data : list byte) : M (MTree S) (result E unit) :=
  let node := mnode_create_leaf fee data in
  _ <-? mt_insert (mn_hash node) node ;;
  t <- get_state ;;
  _ <- mt_set_head (node :: mt_head t) ;;
  _ <-? mt_join_all_subtrees ;;
  ret (Ok tt).
End WithStorage.
End Sum.
