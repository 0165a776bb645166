(** ModelCommon.v -- model of /repo/src/common/: bit access, paths, prefixes,
    in-order positions, the path iterator and the position path. *)
From Verif Require Import Base.

(** * Bits: /repo/src/common/msb.rs *)

Inductive Bit := Bit0 | Bit1.                      (* msb.rs:1-5 *)

Definition bit_eqb (a b : Bit) : bool :=
  match a, b with Bit0, Bit0 => true | Bit1, Bit1 => true | _, _ => false end.

(** msb.rs:11-24 *)
Definition get_bit (b : byte) (bit_index : Z) : option Bit :=
  if bit_index <? 8 then
    let mask := 2 ^ (7 - bit_index) in
    let bit := Z.land (Z_of_byte b) mask in
    if bit =? 0 then Some Bit0 else Some Bit1
  else None.

(** [slice::get]: [None] beyond the end *)
Definition slice_get {A} (l : list A) (i : Z) : option A :=
  if i <? Z.of_nat (length l) then nth_error l (Z.to_nat i) else None.

(** msb.rs:32-39 *)
Definition get_bit_at_index_from_msb (a : list byte) (index : Z) : option Bit :=
  let byte_index := index / 8 in
  let byte_bit_index := index mod 8 in
  match slice_get a byte_index with
  | Some b => get_bit b byte_bit_index
  | None => None
  end.

(** msb.rs:43-51, the loop: [n] iterations left, current index [i] *)
Fixpoint common_prefix_loop (a b : list byte) (n : nat) (i : Z) : out Z :=
  match n with
  | O => Val 0
  | S n' =>
      match get_bit_at_index_from_msb a i, get_bit_at_index_from_msb b i with
      | Some lhs_bit, Some rhs_bit =>
          if bit_eqb lhs_bit rhs_bit
          then c <-! common_prefix_loop a b n' (i + 1) ;; Val (1 + c)
          else Val 0
      | _, _ => Panic                               (* unwrap on None *)
      end
  end.

(** msb.rs:41-53; both arrays have the same length [N] in Rust, here the length of [a] *)
Definition common_prefix_count (a b : list byte) : out Z :=
  common_prefix_loop a b (8 * length a) 0.

(** * Paths: /repo/src/common/path.rs *)

Inductive Instruction := ILeft | IRight.           (* path.rs:3-6 *)

(** path.rs:8-15 *)
Definition instruction_of_bit (b : Bit) : Instruction :=
  match b with Bit0 => ILeft | Bit1 => IRight end.

(** path.rs:29-31 *)
Definition get_instruction (a : list byte) (index : Z) : option Instruction :=
  option_map instruction_of_bit (get_bit_at_index_from_msb a index).

(** * Prefix: /repo/src/common/prefix.rs *)

Inductive Prefix := PNode | PLeaf.                 (* prefix.rs:6-9 *)

Definition prefix_eqb (a b : Prefix) : bool :=
  match a, b with PNode, PNode => true | PLeaf, PLeaf => true | _, _ => false end.

(** prefix.rs:1-2,17-24 and [as_ref] 54-61 *)
Definition prefix_byte (p : Prefix) : byte :=
  match p with PNode => x01 | PLeaf => x00 end.

Inductive PrefixError := InvalidPrefix (b : byte). (* prefix.rs:37-40 *)

(** prefix.rs:42-52 *)
Definition prefix_try_from (b : byte) : result PrefixError Prefix :=
  match b with
  | x01 => Ok PNode
  | x00 => Ok PLeaf
  | _ => Err (InvalidPrefix b)
  end.

(** /repo/src/common/error.rs:5-14 *)
Inductive DeserializeError := DPrefixError (e : PrefixError).

(** /repo/src/common/node.rs:31-38 *)
Inductive ChildError (Key E : Type) :=
| ChildNotFound (k : Key)
| NodeIsLeaf
| ChildErr (e : E).
Arguments ChildNotFound {Key E} k.
Arguments NodeIsLeaf {Key E}.
Arguments ChildErr {Key E} e.

(** /repo/src/common.rs:36-44 *)
Definition empty_sum : bytes32 := B32
  [xe3;xb0;xc4;x42;x98;xfc;x1c;x14;x9a;xfb;xf4;xc8;x99;x6f;xb9;
   x24;x27;xae;x41;xe4;x64;x9b;x93;x4c;xa4;x95;x99;x1b;x78;x52;
   xb8;x55] eq_refl.

(** * Positions: /repo/src/common/position.rs
    A [Position] is its in-order index, a u64 (position.rs:84). *)

Section Position.
Variable pr : profile.

(** [u64::trailing_zeros]: 64 for zero *)
Fixpoint trailing_zeros_loop (fuel : nat) (z : Z) : Z :=
  match fuel with
  | O => 0
  | S f => if Z.odd z then 0 else 1 + trailing_zeros_loop f (z / 2)
  end.
Definition trailing_zeros (z : Z) : Z := trailing_zeros_loop 64 z.

(** position.rs:164-166; [!x] on u64 is [2^64 - 1 - x] *)
Definition pos_height (p : Z) : Z := trailing_zeros (U64 - 1 - p).

(** position.rs:175-177 *)
Definition pos_is_leaf (p : Z) : bool := p mod 2 =? 0.
(** position.rs:185-187 *)
Definition pos_is_node (p : Z) : bool := negb (pos_is_leaf p).

(** position.rs:94-97 *)
Definition pos_leaf_index (p : Z) : out Z :=
  _ <-! assert (pos_is_leaf p) ;; Val (p / 2).

(** position.rs:106-108 *)
Definition pos_from_leaf_index (i : Z) : out Z := u64_ovf pr (i * 2).

(** position.rs:235-238 *)
Definition pos_orientation (p : Z) : out Z :=
  shift <-! shl1_u64 pr (pos_height p + 1) ;;
  Val (if Z.land p shift =? 0 then 0 else 1).

(** position.rs:243-246 *)
Definition pos_direction (p : Z) : out Z :=
  o <-! pos_orientation p ;;
  let scale := o * 2 - 1 in
  Val (- scale).

(** The common last two lines of [sibling], [parent] and [child]:
    [self.in_order_index() as i64 + shift * direction], then [as u64]. *)
Definition pos_offset (p shift direction : Z) : out Z :=
  d <-! i64_ovf pr (shift * direction) ;;
  index <-! i64_ovf pr (as_i64 p + d) ;;
  Val (as_u64 index).

(** position.rs:112-116 *)
Definition pos_sibling (p : Z) : out Z :=
  shift <-! shl1_i64 pr (pos_height p + 1) ;;
  d <-! pos_direction p ;;
  pos_offset p shift d.

(** position.rs:120-124 *)
Definition pos_parent (p : Z) : out Z :=
  shift <-! shl1_i64 pr (pos_height p) ;;
  d <-! pos_direction p ;;
  pos_offset p shift d.

(** position.rs:129-131 *)
Definition pos_uncle (p : Z) : out Z :=
  q <-! pos_parent p ;; pos_sibling q.

(** position.rs:209-214 *)
Definition pos_child (p direction : Z) : out Z :=
  _ <-! assert (pos_is_node p) ;;
  shift <-! shl1_i64 pr (pos_height p - 1) ;;
  pos_offset p shift direction.

(** position.rs:86-87,135-143 *)
Definition pos_left_child (p : Z) : out Z := pos_child p (-1).
Definition pos_right_child (p : Z) : out Z := pos_child p 1.

(** position.rs:256-258 *)
Definition pos_leaf_key (p : Z) : out (list byte) :=
  i <-! pos_leaf_index p ;; Val (u64_to_be_bytes i).
End Position.

(** * The path iterator: /repo/src/common/path_iterator.rs
    The traits [Node] and [ParentNode] (/repo/src/common/node.rs:3-24) become a
    record of the methods the iterator uses; children may be read from a storage,
    hence the state [S]. *)
Record ParentNode (S T CE : Type) : Type := {
  pn_key_size_in_bits : Z;                         (* node.rs:6-8 *)
  pn_height : T -> Z;
  pn_leaf_key : T -> out (list byte);
  pn_is_node : T -> bool;
  pn_left_child : T -> M S (result CE T);
  pn_right_child : T -> M S (result CE T)
}.
Arguments pn_key_size_in_bits {S T CE} _.
Arguments pn_height {S T CE} _ _.
Arguments pn_leaf_key {S T CE} _ _.
Arguments pn_is_node {S T CE} _ _.
Arguments pn_left_child {S T CE} _ _.
Arguments pn_right_child {S T CE} _ _.

(** path_iterator.rs:79-83 *)
Record PathIter (T CE : Type) : Type := {
  it_leaf : T;
  it_current : option (result CE T * result CE T);
  it_current_offset : Z
}.
Arguments Build_PathIter {T CE} _ _ _.
Arguments it_leaf {T CE} _.
Arguments it_current {T CE} _.
Arguments it_current_offset {T CE} _.

Section PathIterator.
Context {S T CE : Type}.
Variable pr : profile.
Variable PN : ParentNode S T CE.

(** path_iterator.rs:89-141 (and [as_path_iter], 184-191) *)
Definition path_iter_new (root leaf : T) : out (PathIter T CE) :=
  initial_offset <-! usize_ovf pr (pn_key_size_in_bits PN - pn_height PN root) ;;
  Val {| it_leaf := leaf;
         it_current := Some (Ok root, Ok root);
         it_current_offset := initial_offset |}.

(** path_iterator.rs:152-178 *)
Definition path_iter_next (it : PathIter T CE)
  : M S (option (result CE T * result CE T) * PathIter T CE) :=
  let value := it_current it in
  match value with
  | Some (path_node, _) =>
      match path_node with
      | Ok path_node =>
          if pn_is_node PN path_node then
            path <- lift (pn_leaf_key PN (it_leaf it)) ;;
            match get_instruction path (it_current_offset it) with
            | None => ret (value, Build_PathIter (it_leaf it) None (it_current_offset it))
            | Some ILeft =>
                l <- pn_left_child PN path_node ;;
                r <- pn_right_child PN path_node ;;
                ret (value, Build_PathIter (it_leaf it) (Some (l, r)) (it_current_offset it + 1))
            | Some IRight =>
                r <- pn_right_child PN path_node ;;
                l <- pn_left_child PN path_node ;;
                ret (value, Build_PathIter (it_leaf it) (Some (r, l)) (it_current_offset it + 1))
            end
          else ret (value, Build_PathIter (it_leaf it) None (it_current_offset it))
      | Err _ => ret (value, Build_PathIter (it_leaf it) None (it_current_offset it))
      end
  | None => ret (value, it)
  end.
End PathIterator.

(** position.rs:249-279: positions as parent nodes; no storage is involved *)
Definition PositionNode (pr : profile) : ParentNode unit Z Empty_set := {|
  pn_key_size_in_bits := 64;
  pn_height := pos_height;
  pn_leaf_key := pos_leaf_key;
  pn_is_node := pos_is_node;
  pn_left_child := fun p => q <- lift (pos_left_child pr p) ;; ret (Ok q);
  pn_right_child := fun p => q <- lift (pos_right_child pr p) ;; ret (Ok q)
|}.

(** [root.as_path_iter(leaf)] on positions, run to its end (path_iterator.rs:184-191,
    152-178; the use in the tests at 196-420 collects the items).  The loop bound is
    part of the model: a walk has at most one item per key bit plus the root. *)
Fixpoint position_iter_collect (pr : profile) (fuel : nat) (it : PathIter Z Empty_set)
  : out (list (Z * Z)) :=
  match fuel with
  | O => Fuel
  | S f =>
      '(item, it') <-! snd (path_iter_next (PositionNode pr) it tt) ;;
      match item with
      | None => Val []
      | Some (Ok path, Ok side) =>
          xs <-! position_iter_collect pr f it' ;; Val ((path, side) :: xs)
      | Some _ => Panic                               (* unwrap on Err *)
      end
  end.
Definition position_iter (pr : profile) (root leaf : Z) : out (list (Z * Z)) :=
  it <-! path_iter_new pr (PositionNode pr) root leaf ;;
  position_iter_collect pr 66 it.

(** * The position path: /repo/src/common/position_path.rs *)

(** position_path.rs:40-44 *)
Record PositionPathIter : Type := {
  pp_rightmost_position : Z;
  pp_current_side_node : option Z;
  pp_path_iter : PathIter Z Empty_set
}.

Section PositionPath.
Variable pr : profile.

(** position_path.rs:47-53 *)
Definition position_path_iter_new (root leaf leaves_count : Z) : out PositionPathIter :=
  last <-! u64_ovf pr (leaves_count - 1) ;;
  rightmost <-! pos_from_leaf_index pr last ;;
  it <-! path_iter_new pr (PositionNode pr) root leaf ;;
  Val {| pp_rightmost_position := rightmost;
         pp_current_side_node := None;
         pp_path_iter := it |}.

(** position_path.rs:98-100, the while loop.  The loop bound of the model is 65:
    each iteration lowers the height and a leaf position panics. *)
Fixpoint side_descend (fuel : nat) (rightmost side : Z) : out Z :=
  if side <=? rightmost then Val side
  else match fuel with
       | O => Fuel
       | S f => side' <-! pos_left_child pr side ;; side_descend f rightmost side'
       end.

(** running the position iterator on its (trivial) state *)
Definition run_unit {A} (m : M unit A) : out A := snd (m tt).

(** position_path.rs:59-113, the for loop.  The loop bound of the model is 66:
    the inner iterator yields at most 65 items (one per bit of an 8-byte key, plus
    the root). *)
Fixpoint position_path_next_loop (fuel : nat) (it : PositionPathIter)
  : out (option (Z * Z) * PositionPathIter) :=
  match fuel with
  | O => Fuel
  | S f =>
      '(item, inner) <-! run_unit (path_iter_next (PositionNode pr) (pp_path_iter it)) ;;
      match item with
      | None =>
          Val (None, {| pp_rightmost_position := pp_rightmost_position it;
                        pp_current_side_node := pp_current_side_node it;
                        pp_path_iter := inner |})
      | Some (Ok path, Ok side) =>
          if path <=? pp_rightmost_position it then
            let side := match pp_current_side_node it with Some n => n | None => side end in
            side <-! side_descend 65 (pp_rightmost_position it) side ;;
            Val (Some (path, side),
                 {| pp_rightmost_position := pp_rightmost_position it;
                    pp_current_side_node := None;
                    pp_path_iter := inner |})
          else
            let saved := match pp_current_side_node it with
                         | None => Some side | Some n => Some n end in
            position_path_next_loop f
              {| pp_rightmost_position := pp_rightmost_position it;
                 pp_current_side_node := saved;
                 pp_path_iter := inner |}
      | Some _ => Panic                               (* unwrap on Err *)
      end
  end.

Definition position_path_next (it : PositionPathIter)
  : out (option (Z * Z) * PositionPathIter) := position_path_next_loop 66 it.

(** [Iterator::unzip]/[collect] on the position path; loop bound 66 as above *)
Fixpoint position_path_collect (fuel : nat) (it : PositionPathIter) : out (list (Z * Z)) :=
  match fuel with
  | O => Fuel
  | S f =>
      '(item, it') <-! position_path_next it ;;
      match item with
      | None => Val []
      | Some x => xs <-! position_path_collect f it' ;; Val (x :: xs)
      end
  end.

(** position.rs:193-195 and position_path.rs:26-38: [root.path(leaf, n).iter()] run
    to its end *)
Definition position_path (root leaf leaves_count : Z) : out (list (Z * Z)) :=
  it <-! position_path_iter_new root leaf leaves_count ;;
  position_path_collect 66 it.
End PositionPath.

(** * Subtree lists: /repo/src/common/subtree.rs
    [Option<Box<Subtree<T>>>] is a linked list; it is modelled by [list T], head
    first: [None] is [[]], [Subtree::new(node, next)] is [node :: next]. *)
