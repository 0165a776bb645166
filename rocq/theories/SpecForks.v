(** SpecForks.v -- several sparse trees in one storage: specification. *)
From Verif Require Import Base SpecSparse.

(** The maps passed through by sessions that answered [rs], starting with the versions [ms]. *)
Fixpoint passed {A B} (ms : list kvmap) (acts : list (nat * list sp_op)) (rs : list (result A B)) : list kvmap :=
  match acts, rs with
  | (i, os) :: acts', r :: rs' =>
      maps (nth i ms []) os ++
      passed (match r with Ok _ => ms ++ [fold_left apply_op os (nth i ms [])] | Err _ => ms end) acts' rs'
  | _, _ => []
  end.

(** The answers [rs] are right: a session that starts from a version and succeeds answers the root of
    the map of this version changed by its calls, which is a new version; [fault] describes the
    allowed errors. *)
Fixpoint all_right {A} (H : list byte -> bytes32) (fault : A -> Prop) (ms : list kvmap)
  (acts : list (nat * list sp_op)) (rs : list (result A bytes32)) : Prop :=
  match acts, rs with
  | [], [] => True
  | (i, os) :: acts', Ok r :: rs' =>
      let m := fold_left apply_op os (nth i ms []) in
      r = kv_root H m /\ all_right H fault (ms ++ [m]) acts' rs'
  | _ :: acts', Err e :: rs' => fault e /\ all_right H fault ms acts' rs'
  | _, _ => False
  end.

(** The maps passed through if every session succeeds. *)
Fixpoint trunk (ms : list kvmap) (acts : list (nat * list sp_op)) : list kvmap :=
  match acts with
  | [] => []
  | (i, os) :: acts' => maps (nth i ms []) os ++ trunk (ms ++ [fold_left apply_op os (nth i ms [])]) acts'
  end.

(** The maps passed through whichever sessions succeed. *)
Fixpoint branches (ms : list kvmap) (acts : list (nat * list sp_op)) : list kvmap :=
  match acts with
  | [] => []
  | (i, os) :: acts' => maps (nth i ms []) os ++ branches (ms ++ [fold_left apply_op os (nth i ms [])]) acts' ++ branches ms acts'
  end.

(** The versions created if every session succeeds. *)
Fixpoint versions (ms : list kvmap) (acts : list (nat * list sp_op)) : list kvmap :=
  match acts with
  | [] => []
  | (i, os) :: acts' =>
      let m := fold_left apply_op os (nth i ms []) in m :: versions (ms ++ [m]) acts'
  end.

Definition act_keys (acts : list (nat * list sp_op)) : list bytes32 :=
  concat (map (fun a => map op_key (snd a)) acts).
Definition only_updates (acts : list (nat * list sp_op)) : Prop :=
  forall a o, In a acts -> In o (snd a) -> is_update o.
