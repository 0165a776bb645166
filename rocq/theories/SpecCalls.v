(** SpecCalls.v -- the calls a tree makes to its storage, one by one.  [Logged st] is the storage
    [st] with a log of the calls and their outcomes; it is not code of the repository.  The
    scripts say which calls are to be made; they are independent of the model. *)
From Verif Require Import Base Storage ModelCommon ModelSparse SpecBits SpecBinary SpecPosition SpecSparse SpecAnyRun SpecDisk.

Inductive call (K V : Type) : Type :=
| Get (k : K)
| Put (k : K) (v : V)
| Del (k : K).
Arguments Get {K V} k.
Arguments Put {K V} k v.
Arguments Del {K V} k.

(** A call and the error it was answered with, if any. *)
Definition event (K V E : Type) : Type := (call K V * option E)%type.
Definition done {K V E} (c : call K V) : event K V E := (c, None).
Definition outcome {E A} (r : result E A) : option E := match r with Ok _ => None | Err e => Some e end.

Section Logged.
Context {S K V E : Type}.
Variable st : StorageT S K V E.

Definition Logged : StorageT (list (event K V E) * S) K V E :=
  {| s_get := fun k ls => let '(l, s) := ls in let '(s', r) := s_get st k s in ((l ++ [(Get k, outcome r)], s'), r);
     s_insert := fun k v ls => let '(l, s) := ls in let '(s', r) := s_insert st k v s in
       ((l ++ [(Put k v, outcome r)], s'), r);
     s_remove := fun k ls => let '(l, s) := ls in let '(s', r) := s_remove st k s in
       ((l ++ [(Del k, outcome r)], s'), r) |}.
End Logged.

(** The calls of a script up to the first one that fails: [before] succeeded, [failed] was
    answered with [e], [ahead] was called all the same, the rest was not. *)
Definition cut_short {K V E} (script : list (call K V)) (log : list (event K V E))
    (before : list (call K V)) (failed : call K V) (e : E) (ahead : list (call K V)) : Prop :=
  exists rest outs, script = before ++ failed :: ahead ++ rest /\
    log = map done before ++ (failed, Some e) :: outs /\ map fst outs = ahead.

Definition is_get {K V} (c : call K V) : Prop := match c with Get _ => True | _ => False end.

(** * The sparse tree *)
Definition scall : Type := call bytes32 entry.

Section Sparse.
Variable H : list byte -> bytes32.

(** The read of a subtree of entries [l] at depth [d]; an empty one is not read. *)
Definition read_of (n d : nat) (l : list (bytes32 * bytes32)) : list scall :=
  match l with [] => [] | _ => [Get (smt H n d l)] end.
(** The reads on the way down the path of [k]: both children of each node met, the child on
    the path first. *)
Fixpoint walk (n d : nat) (k : bytes32) (l : list (bytes32 * bytes32)) : list scall :=
  match l, n with
  | _ :: _ :: _, S n' =>
      let on := with_bit d (kbit k d) l in
      read_of n' (S d) on ++ read_of n' (S d) (with_bit d (negb (kbit k d)) l) ++ walk n' (S d) k on
  | _, _ => []
  end.
Definition walk_in (k : bytes32) (m : kvmap) : list scall := walk 256 0 k (digests H m).

(** The writes of the nodes on the path of [k], from the bottom up, without the node the path
    ends in. *)
Definition put_nodes (k : bytes32) (m : kvmap) : list scall :=
  flat_map (fun x : bytes32 * option entry => match snd x with Some e => [Put (fst x) e] | None => [] end)
    (rev (removelast (path_in H k m))).

(** The calls made by one call on a tree that holds [m], on a storage that holds [d]. *)
Definition script_op (x : kvmap * disk) (o : sp_op) : list scall :=
  let '(m, d) := x in
  match o with
  | Update k (b :: v) =>
      let leaf := (0, x00, k, H (b :: v)) in
      [Put (H (smt_leaf_input k (H (b :: v)))) leaf; Put k leaf] ++ walk_in k m ++ put_nodes k (mset k (b :: v) m)
  | Update k [] | Delete k =>
      match m, d k with
      | [], _ => []
      | _, None => [Get k]
      | _, Some _ =>
          [Get k] ++ walk_in k m ++ map (fun x => Del (fst x)) (rev (path_in H k m)) ++
          put_nodes k (without_landing k m)
      end
  end.
Fixpoint script (x : kvmap * disk) (os : list sp_op) : list scall :=
  match os with [] => [] | o :: os' => script_op x o ++ script (replay_op H x o) os' end.
End Sparse.

(** What a call on a sparse tree did and answered when the storage failed.  Nothing is written
    after a failure.  The walk reads up to two further nodes after a failed read. *)
Definition sparse_stop {E A} (script : list scall) (log : list (event bytes32 entry E)) (r : result (SError E) A) : Prop :=
  exists before failed e ahead, cut_short script log before failed e ahead /\
    match failed, before with
    | Get _, _ :: _ => r = Err (SChildErr (ChildErr (SNStorageError e))) /\ (length ahead <= 2)%nat /\ Forall is_get ahead
    | _, _ => r = Err (SStorageError e) /\ ahead = []
    end.

(** * The binary tree *)
Definition bcall : Type := call Z (Z * bytes32).

Section BinaryCalls.
Variable H : list byte -> bytes32.

(** The writes of a push: the block [b] of height [h]; if it is a right one, the block it
    completes. *)
Fixpoint put_blocks (fuel h b : nat) (ds : list (list byte)) : list bcall :=
  Put (index_of h b) (index_of h b, mth H (block h b ds)) ::
  match fuel with
  | S f => if Nat.odd b then put_blocks f (S h) (Nat.div2 b) ds else []
  | O => []
  end.
(** Pushing [d] onto [ds]. *)
Definition push_script (ds : list (list byte)) (d : list byte) : list bcall :=
  put_blocks (length ds) 0 (length ds) (ds ++ [d]).
Fixpoint push_scripts (ds new : list (list byte)) : list bcall :=
  match new with [] => [] | d :: new' => push_script ds d ++ push_scripts (ds ++ [d]) new' end.
End BinaryCalls.

(** The reads of a load: the peaks, from left to right. *)
Definition load_script (n : nat) : list bcall :=
  map (fun p => Get (index_of (fst p) (snd p))) (peaks (S (Nat.log2 n)) n).

(** The subtrees on the audit path of leaf [m] of the [n] leaves from [off] on, from the leaf
    to the root: first leaf and number of leaves. *)
Fixpoint side_ranges (fuel m off n : nat) : list (nat * nat) :=
  match fuel with
  | O => []
  | S f =>
      if (n <=? 1)%nat then []
      else let k := split_point n in
           if (m <? k)%nat then side_ranges f m off k ++ [(off + k, n - k)%nat]
           else side_ranges f (m - k) (off + k) (n - k) ++ [(off, k)]
  end.
(** The index of the root of such a subtree. *)
Definition place (x : nat * nat) : Z :=
  let h := Nat.log2_up (snd x) in index_of h (fst x / 2 ^ h).
(** The reads of a proof: the leaf, then the subtrees on the audit path. *)
Definition prove_script (n i : nat) : list bcall :=
  Get (index_of 0 i) :: map (fun x => Get (place x)) (side_ranges n i 0 n).

(** A call of the script failed, nothing was called after it. *)
Definition stopped {E} (script : list bcall) (log : list (event Z (Z * bytes32) E)) (e : E) : Prop :=
  exists before failed, cut_short script log before failed e [].
(** A read of the script found nothing, nothing was called after it. *)
Definition missed {E} (script : list bcall) (log : list (event Z (Z * bytes32) E)) (before : list bcall) (k : Z) : Prop :=
  exists rest, script = before ++ Get k :: rest /\ log = map done (before ++ [Get k]).
