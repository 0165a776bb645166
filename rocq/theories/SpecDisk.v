(** SpecDisk.v -- the exact content of the storage of a sparse tree, replayed from the calls.
    Independent of the model: entries are (height, prefix byte, two 32-byte fields). *)
From Verif Require Import Base SpecBits SpecBinary SpecSparse SpecAnyRun.

Definition entry : Type := (Z * byte * bytes32 * bytes32)%type.
Definition disk : Type := bytes32 -> option entry.
Definition put (d : disk) (h : bytes32) (e : entry) : disk := fun k => if b32_eqb k h then Some e else d k.
Definition drop (d : disk) (h : bytes32) : disk := fun k => if b32_eqb k h then None else d k.

Section Disk.
Variable H : list byte -> bytes32.

(** The nodes met on the path of [k] through the tree of [l], from the root down to the first
    node with at most one entry below: hashes and entries. *)
Fixpoint path (n d : nat) (k : bytes32) (l : list (bytes32 * bytes32)) : list (bytes32 * option entry) :=
  match l with
  | [] => [(zero32, None)]
  | [(k', h)] => [(H (smt_leaf_input k' h), Some (0, x00, k', h))]
  | _ :: _ :: _ =>
      match n with
      | O => []
      | S n' =>
          let lo := smt H n' (S d) (with_bit d false l) in
          let hi := smt H n' (S d) (with_bit d true l) in
          (H (smt_node_input lo hi), Some (Z.of_nat n, x01, lo, hi)) :: path n' (S d) k (with_bit d (kbit k d) l)
      end
  end.
Definition path_in (k : bytes32) (m : kvmap) : list (bytes32 * option entry) := path 256 0 k (digests H m).
Definition put_path (p : list (bytes32 * option entry)) (d : disk) : disk :=
  fold_left (fun d x => match snd x with Some e => put d (fst x) e | None => d end) p d.
Definition drop_path (p : list (bytes32 * option entry)) (d : disk) : disk :=
  fold_left (fun d x => drop d (fst x)) p d.

(** The map and the content of the storage after one call that answers Ok.  An update stores
    the leaf under its key and the new nodes on the path.  A delete acts if the tree is not
    empty and something is stored under the key: it takes the entry the path leads to out of
    the map, drops the nodes on the path and stores the new ones.  The entry stored under the
    key stays. *)
Definition replay_op (x : kvmap * disk) (o : sp_op) : kvmap * disk :=
  let '(m, d) := x in
  match o with
  | Update k (b :: v) =>
      let m' := mset k (b :: v) m in
      (m', put_path (path_in k m') (put d k (0, x00, k, H (b :: v))))
  | Update k [] | Delete k =>
      match m, d k with
      | [], _ | _, None => (m, d)
      | _, Some _ =>
          let m' := without_landing k m in
          (m', put_path (path_in k m') (drop_path (path_in k m) d))
      end
  end.
Definition nothing : kvmap * disk := ([], fun _ => None).
Definition replay (os : list sp_op) : kvmap * disk := fold_left replay_op os nothing.

(** The maps passed through. *)
Fixpoint trail (x : kvmap * disk) (os : list sp_op) : list kvmap :=
  fst x :: match os with [] => [] | o :: os' => trail (replay_op x o) os' end.
End Disk.

(** The data of the last update of [k] with non-empty data. *)
Definition last_write (k : bytes32) (os : list sp_op) : option (list byte) :=
  fold_left (fun w o => match o with
                        | Update k' (b :: v) => if b32_eqb k' k then Some (b :: v) else w
                        | _ => w
                        end) os None.
