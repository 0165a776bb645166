(** ModelVerify.v -- model of /repo/test-helpers/src/binary/: the proof verifier
    (verify.rs) and the streaming reference tree (merkle_tree.rs). *)
From Verif Require Import Base ModelCommon ModelBinary.

Section Verify.
(** SHA-256; test-helpers/src/binary/hash.rs:24-39 repeats [node_sum]/[leaf_sum] of
    /repo/src/binary/hash.rs and :12-20 the empty constant, so the same model
    functions are used. *)
Variable H : list byte -> bytes32.
Variable pr : profile.

(** [proof_set[height]]: panics beyond the end *)
Definition index_vec (l : list bytes32) (i : Z) : out bytes32 :=
  match slice_get l i with Some x => Val x | None => Panic end.

(** verify.rs:18-39, the loop.  Returns [None] for `return false`, otherwise the final
    (sum, stable_end, height).  The loop bound of the model is the number of entries of the
    proof set: [height] starts at 1, grows in each iteration, and the loop returns when it
    reaches that number (theorem C66_verify_ends). *)
Fixpoint verify_loop (fuel : nat) (proof_set : list bytes32) (proof_index num_leaves : Z)
    (sum : bytes32) (stable_end height : Z) : out (option (bytes32 * Z * Z)) :=
  match fuel with
  | O => Fuel
  | S f =>
      w <-! shl1_u64 pr height ;;
      if w =? 0 then Panic else                       (* division by zero *)
      subtree_start_index <-! u64_ovf pr (proof_index / w * w) ;;
      e <-! u64_ovf pr (subtree_start_index + w) ;;
      subtree_end_index <-! u64_ovf pr (e - 1) ;;
      if subtree_end_index >=? num_leaves then Val (Some (sum, stable_end, height))
      else
        let stable_end := subtree_end_index in
        if Z.of_nat (length proof_set) <=? height then Val None
        else
          proof_data <-! index_vec proof_set height ;;
          half <-! shl1_u64 pr (height - 1) ;;
          off <-! u64_ovf pr (proof_index - subtree_start_index) ;;
          let sum := if off <? half
                     then node_sum H sum proof_data
                     else node_sum H proof_data sum in
          verify_loop f proof_set proof_index num_leaves sum stable_end (height + 1)
  end.

(** verify.rs:50-54, the while loop, on the remaining entries *)
Fixpoint verify_tail (rest : list bytes32) (sum : bytes32) : bytes32 :=
  match rest with
  | [] => sum
  | proof_data :: rest' => verify_tail rest' (node_sum H proof_data sum)
  end.

(** verify.rs:3-57 *)
Definition verify (root : bytes32) (proof_set : list bytes32) (proof_index num_leaves : Z)
  : out bool :=
  if proof_index >=? num_leaves then Val false
  else
    match proof_set with
    | [] => Val false
    | first :: _ =>
        r <-! verify_loop (length proof_set) proof_set proof_index num_leaves first proof_index 1 ;;
        match r with
        | None => Val false
        | Some (sum, stable_end, height) =>
            last <-! u64_ovf pr (num_leaves - 1) ;;
            if negb (stable_end =? last) then
              if Z.of_nat (length proof_set) <=? height then Val false
              else
                proof_data <-! index_vec proof_set height ;;
                let sum := node_sum H sum proof_data in
                Val (b32_eqb (verify_tail (skipn (Z.to_nat (height + 1)) proof_set) sum) root)
            else
              Val (b32_eqb (verify_tail (skipn (Z.to_nat height) proof_set) sum) root)
        end
    end.

(** * The reference tree: test-helpers/src/binary/merkle_tree.rs *)

(** test-helpers/src/binary/node.rs:2-6; the [next] link is the rest of the list *)
Record RNode : Type := { rn_height : Z; rn_data : bytes32 }.

(** merkle_tree.rs:6-11; leaves_count() (:45-47) is the field *)
Record RTree : Type := {
  rt_head : list RNode;
  rt_leaves_count : Z;
  rt_proof_index : Z;
  rt_proof_set : list bytes32
}.

(** merkle_tree.rs:14-21 *)
Definition rt_new : RTree := Build_RTree [] 0 0 [].

(** merkle_tree.rs:23-28 *)
Definition rt_set_proof_index (i : Z) (t : RTree) : out RTree :=
  match rt_head t with
  | _ :: _ => Panic
  | [] => Val (Build_RTree (rt_head t) (rt_leaves_count t) i (rt_proof_set t))
  end.

(** merkle_tree.rs:123-128 *)
Definition rt_join_subtrees (a b : RNode) : out RNode :=
  height <-! u32_ovf pr (rn_height a + 1) ;;
  Val {| rn_height := height; rn_data := node_sum H (rn_data a) (rn_data b) |}.

(** merkle_tree.rs:34-40 *)
Fixpoint rt_root_loop (current : RNode) (next : list RNode) : out bytes32 :=
  match next with
  | [] => Val (rn_data current)
  | n :: next' => j <-! rt_join_subtrees n current ;; rt_root_loop j next'
  end.

(** merkle_tree.rs:30-43 *)
Definition rt_root (t : RTree) : out bytes32 :=
  match rt_head t with
  | [] => Val empty_sum
  | h :: next => rt_root_loop h next
  end.

(** merkle_tree.rs:96-121.  Loop bound: the length of the list. *)
Fixpoint rt_join_all_loop (fuel : nat) (t : RTree) : out RTree :=
  match fuel with
  | O => Fuel
  | S f =>
      match rt_head t with
      | [] => Panic
      | [_] => Val t
      | head :: hnext :: next =>
          if rn_height head =? rn_height hnext then
            let proof_set_length := Z.of_nat (length (rt_proof_set t)) in
            h1 <-! u32_ovf pr (rn_height head + 1) ;;
            proof_set <-!
              (if h1 =? proof_set_length then
                 head_leaves_count <-! shl1_u64 pr (rn_height head) ;;
                 if head_leaves_count =? 0 then Panic else
                 mid <-! u64_ovf pr (rt_leaves_count t / head_leaves_count * head_leaves_count) ;;
                 if rt_proof_index t <? mid
                 then Val (rt_proof_set t ++ [rn_data head])
                 else Val (rt_proof_set t ++ [rn_data hnext])
               else Val (rt_proof_set t)) ;;
            j <-! rt_join_subtrees hnext head ;;
            rt_join_all_loop f
              (Build_RTree (j :: next) (rt_leaves_count t) (rt_proof_index t) proof_set)
          else Val t
      end
  end.

(** merkle_tree.rs:49-59 *)
Definition rt_push (data : list byte) (t : RTree) : out RTree :=
  let proof_set := if rt_leaves_count t =? rt_proof_index t
                   then rt_proof_set t ++ [leaf_sum H data] else rt_proof_set t in
  let node := {| rn_height := 0; rn_data := leaf_sum H data |} in
  let t1 := Build_RTree (node :: rt_head t) (rt_leaves_count t) (rt_proof_index t) proof_set in
  t2 <-! rt_join_all_loop (length (rt_head t1)) t1 ;;
  n <-! u64_ovf pr (rt_leaves_count t2 + 1) ;;
  Val (Build_RTree (rt_head t2) n (rt_proof_index t2) (rt_proof_set t2)).

(** merkle_tree.rs:69-73; [len1] is [proof_set_length - 1] *)
Fixpoint rt_prove_join (len1 : Z) (current : RNode) (next : list RNode)
  : out (RNode * list RNode) :=
  match next with
  | [] => Val (current, [])
  | n :: next' =>
      if rn_height n <? len1 then
        j <-! rt_join_subtrees n current ;; rt_prove_join len1 j next'
      else Val (current, next)
  end.

(** merkle_tree.rs:61-86.  [len() as u32] cannot truncate here (at most 65 entries). *)
Definition rt_prove (t : RTree) : out (bytes32 * list bytes32) :=
  let proof_set_length := Z.of_nat (length (rt_proof_set t)) in
  match rt_head t with
  | [] => r <-! rt_root t ;; Val (r, rt_proof_set t)
  | h :: next0 =>
      if proof_set_length =? 0 then r <-! rt_root t ;; Val (r, rt_proof_set t)
      else
        '(current, next) <-! rt_prove_join (proof_set_length - 1) h next0 ;;
        let '(proof_set, rest) :=
          match next with
          | n :: next' =>
              if rn_height n =? proof_set_length - 1
              then (rt_proof_set t ++ [rn_data current], next')
              else (rt_proof_set t, next)
          | [] => (rt_proof_set t, [])
          end in
        r <-! rt_root t ;;
        Val (r, proof_set ++ map rn_data rest)
  end.
End Verify.
