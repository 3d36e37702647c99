(** The project's own tests, run in the model.

    Not a property: each example below is a unit test of /repo (src/cache/internal.rs
    947-1954, src/test.rs, src/test_impl.rs, src/multi_level_test.rs) translated to
    the calls of the model, with the same assertions in the same order, computed by
    the kernel.  They pass in the repository; here they show that the model answers
    as the code does where the code is known to have been run.  Each is run with and
    without debug assertions and with two iteration orders of the hash sets. *)
From Verif Require Import Demo Several Doc.
From Coq Require Import String.

(** ** Test language *)

(** [COUNTER] (src/test.rs:13) is [PAsk]: the clock, which is also used for the
    addresses of builders. *)
Definition test_env (k : kind) (dbg rv : bool) : env :=
  Env (λ n, 100 + N.of_nat n)%N (λ _ _ _ x, if rv then (1000 - x)%N else x) dbg k.
Definition four (k : kind) : list env :=
  [test_env k true false; test_env k true true; test_env k false false; test_env k false true].

(** [==] on artifacts ([derive(PartialEq)]): [Rc] and [Arc] compare contents. *)
Fixpoint content (v : val) : val :=
  match v with
  | VBin _ v => content v
  | VSome v => VSome (content v)
  | VPair v w => VPair (content v) (content w)
  | v => v
  end.
(** What a register holds: the artifact, and its address if it is in a bin. *)
Definition got (y : answer) : option (option N * val) :=
  match y with
  | Returned (OutRes (RvBin b)) | Returned (OutOpt (Some (RvBin b))) => Some (Some (bin_ptr b), content (bin_val b))
  | Returned (OutRes (RvVal v)) | Returned (OutOpt (Some (RvVal v))) => Some (None, content v)
  | Returned (OutVal v) | Returned (OutOptVal (Some v)) => Some (None, content v)
  | _ => None
  end.

(** [let r = cache.call(..)]; [assert_eq!], [assert_ne!] and [Rc::ptr_eq] of two
    registers; [assert!(contains_artifact(o) == b)] and so on; the direct field of an
    artifact, [r' = r.leaf]. *)
Inductive cmd :=
| Let (r : nat) (x : op)
| Do (x : op)
| Eq (r r' : nat)
| Ne (r r' : nat)
| PtrEq (r r' : nat)
| PtrNe (r r' : nat)
| Gives (x : op) (r : nat)               (* assert_eq!(Some(r), call) *)
| Known (o : obj) (b : bool)
| Has (o : obj) (b : bool)               (* contains_artifact, lookup.is_some() *)
| State (o : obj) (b : bool)             (* get_dyn_state.is_some() *)
| Count (n : nat)
| Fails (x : op)                         (* Err *)
| Succeeds (x : op).                     (* Ok *)

Definition answer_of (E : env) (x : op) (s : st) : option (answer * st) :=
  match step E 50 x s with
  | Done r s' => Some (Returned r, s')
  | Panic k s' => if resumable k then Some (Panicked k, unwound s') else None
  | _ => None
  end.
Definition regs := nat → option (option N * val).
Definition upd (r : nat) (v : option (option N * val)) (R : regs) : regs := λ q, if Nat.eqb q r then v else R q.
Definition same (x y : option (option N * val)) : option bool :=
  match x, y with Some (_, v), Some (_, w) => Some (bool_decide (v = w)) | _, _ => None end.
Definition same_ptr (x y : option (option N * val)) : option bool :=
  match x, y with Some (Some p, _), Some (Some q, _) => Some (p =? q)%N | _, _ => None end.
Definition is_out (y : answer) (f : out → bool) : bool := match y with Returned r => f r | _ => false end.

Fixpoint script (E : env) (l : list cmd) (R : regs) (s : st) : bool :=
  match l with
  | [] => true
  | Let r x :: l => match answer_of E x s with Some (y, s) => script E l (upd r (got y) R) s | None => false end
  | Do x :: l => match answer_of E x s with Some (Returned _, s) => script E l R s | _ => false end
  | Eq r q :: l => match same (R r) (R q) with Some true => script E l R s | _ => false end
  | Ne r q :: l => match same (R r) (R q) with Some false => script E l R s | _ => false end
  | PtrEq r q :: l => match same_ptr (R r) (R q) with Some true => script E l R s | _ => false end
  | PtrNe r q :: l => match same_ptr (R r) (R q) with Some false => script E l R s | _ => false end
  | Gives x r :: l =>
    match answer_of E x s with
    | Some (y, s) => match same (got y) (R r) with Some true => script E l R s | _ => false end
    | None => false
    end
  | Known o b :: l =>
    match answer_of E (OIsKnown o) s with
    | Some (y, s) => is_out y (λ r, match r with OutBool c => Bool.eqb b c | _ => false end) && script E l R s
    | None => false
    end
  | Has o b :: l =>
    match answer_of E (OLookup HRef o) s with
    | Some (y, s) => is_out y (λ r, match r with OutOpt z => Bool.eqb b (bool_decide (is_Some z)) | _ => false end) && script E l R s
    | None => false
    end
  | State o b :: l =>
    match answer_of E (OGetDynState o) s with
    | Some (y, s) => is_out y (λ r, match r with OutOptVal z => Bool.eqb b (bool_decide (is_Some z)) | _ => false end) && script E l R s
    | None => false
    end
  | Count n :: l =>
    match answer_of E ONumKnown s with
    | Some (y, s) => is_out y (λ r, match r with OutNum m => Nat.eqb m n | _ => false end) && script E l R s
    | None => false
    end
  | Fails x :: l =>
    match answer_of E x s with
    | Some (y, s) => is_out y (λ r, match r with OutRes (RvErr _) => true | _ => false end) && script E l R s
    | None => false
    end
  | Succeeds x :: l =>
    match answer_of E x s with
    | Some (y, s) => is_out y (λ r, match r with OutRes (RvErr _) => false | OutRes _ => true | _ => false end) && script E l R s
    | None => false
    end
  end.
Definition passes (k : kind) (l : list cmd) : bool := forallb (λ E, script E l (λ _, None) init_st) (four k).

(** ** Builders of src/test.rs.  [let x = Blueprint::new(..)] is [OAlloc]; builders
    are numbered from 0 in order of their making. *)

(** test.rs:31-51, also test_impl.rs:34-45. *)
Definition leaf : bdef := BDef 1 1 (Some VUnit) (PAsk (λ n, PNewBin (VNum n) (λ b, PRet (Ok b)))).
(** test.rs:68-91. *)
Definition leaf_fallible : bdef :=
  BDef 1 2 (Some (VNum 1)) (PState (λ v,
    match v with VNum 1 => PAsk (λ n, PNewBin (VNum n) (λ b, PRet (Ok b))) | _ => PRet (Err VUnit) end)).
Definition node_of (n : N) (b : bin) : val := VPair (VNum n) (VBin (bin_ptr b) (bin_val b)).
(** test.rs:115-143, also test_impl.rs:67-78. *)
Definition simple_node (w : obj) : bdef :=
  BDef 3 1 (Some VUnit) (PResolve HBin w (λ r,
    match r with
    | RvBin b => PAsk (λ n, PNewBin (node_of n b) (λ b, PRet (Ok b)))
    | RvErr e => PRet (Err e)
    | RvVal _ => PPanic
    end)).
(** test.rs:171-212. *)
Definition variable_node (w : obj) : bdef :=
  BDef 4 3 (Some (VPair (VObj w) (VNum 1))) (PState (λ v,
    match v with
    | VPair (VObj w) _ =>
      PResolve HBin w (λ r,
        match r with
        | RvBin b => PState (λ v,
            match v with
            | VPair _ (VNum 1) => PAsk (λ n, PNewBin (node_of n b) (λ b, PRet (Ok b)))
            | _ => PRet (Err VUnit)
            end)
        | RvErr e => PRet (Err e)
        | RvVal _ => PPanic
        end)
    | _ => PPanic
    end)).
(** test.rs:245-285: the counter is read before the resolves. *)
Definition complex_node (l r : obj) : bdef :=
  BDef 5 1 (Some VUnit) (PAsk (λ n,
    PResolve HBin l (λ x, PResolve HBin r (λ y,
      match x, y with
      | RvBin b, RvBin c =>
        PNewBin (VPair (VNum n) (VPair (VBin (bin_ptr b) (bin_val b)) (VBin (bin_ptr c) (bin_val c)))) (λ b, PRet (Ok b))
      | RvErr e, _ | _, RvErr e => PRet (Err e)
      | _, _ => PPanic
      end)))).

Local Notation get o := (OGet HBin o).
Local Notation get_ref o := (OGet HRef o).
Local Notation get_cloned o := (OGet HCloned o).
Local Notation lookup o := (OLookup HBin o).
Local Notation lookup_ref o := (OLookup HRef o).
Local Notation lookup_cloned o := (OLookup HCloned o).
Definition news (l : list bdef) : list cmd := (λ d, Do (OAlloc d)) <$> l.
Definition all_of (o : obj) (k a s : bool) : list cmd := [Known o k; Has o a; State o s].
Definition wr (v : val) : val → val := λ _, v.

(** ** src/cache/internal.rs *)

Example contains_artifact_test : passes Shared                              (* 1047-1065 *)
  (news [leaf] ++ [Has 0 false; Do (get 0); Has 0 true; Do (OInvalidate 0); Has 0 false]) = true.
Proof. vm_compute. reflexivity. Qed.

Example is_builder_known_test : passes Shared                               (* 1067-1089 *)
  (news [leaf] ++ [Known 0 false; Do (get 0); Known 0 true; Do (OInvalidate 0); Known 0 true; Do (OPurge 0); Known 0 false]) = true.
Proof. vm_compute. reflexivity. Qed.

Example is_builder_known_by_id_test : passes Shared                         (* 1091-1117 *)
  (news [leaf] ++ [Known 0 false; Do (ODynState 0); Known 0 true; Do (OPurge 0); Known 0 false; Do (OInvalidate 0); Known 0 false;
                   Do (lookup 0); Known 0 false]) = true.
Proof. vm_compute. reflexivity. Qed.

Example lookup_test : passes Shared                                         (* 1119-1143 *)
  (news [leaf] ++ [Has 0 false; Do (ODynState 0); Has 0 false; Let 0 (get 0); Has 0 true;
                   Let 1 (lookup 0); Let 2 (lookup 0); Eq 1 2; PtrEq 0 1; Eq 0 1; Do (OInvalidate 0); Has 0 false]) = true.
Proof. vm_compute. reflexivity. Qed.

Example lookup_ref_test : passes Shared                                     (* 1145-1173 *)
  (news [leaf] ++ [Has 0 false; Do (ODynState 0); Has 0 false; Let 0 (get 0); Has 0 true;
                   Let 1 (lookup_ref 0); Let 2 (lookup_ref 0); Eq 1 2; Eq 0 1; Do (OInvalidate 0); Has 0 false]) = true.
Proof. vm_compute. reflexivity. Qed.

Definition no_write : val → val := λ v, v.
Example lookup_mut_test : passes Boxed                                      (* 1175-1205 *)
  (news [leaf] ++ [Do (OLookupMut 0 no_write); Has 0 false; Do (ODynState 0); Do (OLookupMut 0 no_write); Has 0 false;
                   Let 0 (get_ref 0); Has 0 true;
                   Let 1 (OLookupMut 0 no_write); Let 2 (OLookupMut 0 no_write); Eq 1 2; Eq 0 1;
                   Do (OInvalidate 0); Do (OLookupMut 0 no_write); Has 0 false]) = true.
Proof. vm_compute. reflexivity. Qed.

Example lookup_cloned_test : passes Boxed                                   (* 1207-1230 *)
  (news [leaf] ++ [Has 0 false; Do (ODynState 0); Has 0 false; Let 0 (get_ref 0); Has 0 true;
                   Let 1 (lookup_cloned 0); Let 2 (lookup_cloned 0); Eq 1 2; Eq 0 1; Do (OInvalidate 0); Has 0 false]) = true.
Proof. vm_compute. reflexivity. Qed.

Example build_test : passes Shared                                          (* 1232-1259 *)
  (news [leaf] ++ [Has 0 false; State 0 false; Let 0 (get 0); Has 0 true; State 0 true; Let 1 (lookup 0); PtrEq 0 1;
                   Do (OInvalidate 0); Has 0 false; Let 2 (get 0); Has 0 true; Let 3 (lookup 0); PtrEq 2 3; PtrNe 0 2]) = true.
Proof. vm_compute. reflexivity. Qed.

(** [build] of a builder with an artifact panics, with debug assertions. *)
Example build_double_build_test : forallb (λ E,                             (* 1261-1280 *)
    match run E 9 [OAlloc leaf; OGet HBin 0] init_st with
    | Some (_, s) => match build E 9 0 s with Panic PkDebug _ => true | _ => false end
    | None => false
    end) [test_env Shared true false; test_env Shared true true] = true.
Proof. vm_compute. reflexivity. Qed.

Example build_err_test : passes Shared                                      (* 1282-1320 *)
  (news [leaf_fallible] ++ [Has 0 false; Do (ODynStateMut 0 (wr (VNum 0))); Fails (get 0); Has 0 false; Fails (get 0); Has 0 false;
                            Do (ODynStateMut 0 (wr (VNum 1))); Succeeds (get 0); Has 0 true]) = true.
Proof. vm_compute. reflexivity. Qed.

Example get_test : passes Shared                                            (* 1322-1346 *)
  (news [leaf] ++ [Has 0 false; Let 0 (get 0); Gives (lookup 0) 0; Let 0 (get 0); Let 1 (lookup 0); PtrEq 0 1;
                   Do (OInvalidate 0); Let 2 (get 0); Ne 0 2; PtrNe 0 2; Gives (lookup 0) 2]) = true.
Proof. vm_compute. reflexivity. Qed.

Example get_ref_test : passes Shared                                        (* 1348-1374 *)
  (news [leaf] ++ [Has 0 false; Let 0 (get_ref 0); Gives (lookup_ref 0) 0; Let 1 (get_ref 0); Gives (lookup_ref 0) 1;
                   Let 2 (get 0); Eq 2 1; Do (OInvalidate 0); Let 3 (get_ref 0); Ne 2 3; Gives (lookup_ref 0) 3]) = true.
Proof. vm_compute. reflexivity. Qed.

Example get_mut_test : passes Boxed                                         (* 1376-1399 *)
  (news [leaf] ++ [Has 0 false; Let 0 (OGetMut 0 no_write); Gives (OLookupMut 0 no_write) 0; Let 1 (OGetMut 0 no_write);
                   Gives (OLookupMut 0 no_write) 1; Let 2 (get_cloned 0); Do (OInvalidate 0); Let 3 (OGetMut 0 no_write); Ne 2 3]) = true.
Proof. vm_compute. reflexivity. Qed.

Example get_cloned_test : passes Boxed                                      (* 1401-1424 *)
  (news [leaf] ++ [Has 0 false; Let 0 (get_cloned 0); Gives (lookup_cloned 0) 0; Let 0 (get_cloned 0); Gives (lookup_cloned 0) 0;
                   Let 1 (get_cloned 0); Do (OInvalidate 0); Let 2 (get_cloned 0); Ne 1 2]) = true.
Proof. vm_compute. reflexivity. Qed.

Example ensure_dyn_state_test : passes Shared                               (* 1426-1452 *)
  (news [leaf_fallible] ++ [State 0 false; Let 0 (ODynState 0); Gives (ODynState 0) 0; Gives (ODynState 0) 0;
                            Do (ODynStateMut 0 (wr (VNum 0))); Let 1 (ODynState 0); Ne 0 1; Gives (ODynState 0) 1]) = true.
Proof. vm_compute. reflexivity. Qed.

Example dyn_state_test : passes Shared                                      (* 1454-1534 *)
  (news [leaf_fallible] ++ [State 0 false; Let 0 (ODynState 0); State 0 true; Gives (ODynState 0) 0; Gives (OGetDynState 0) 0;
                            Gives (ODynStateMut 0 no_write) 0; Gives (ODynStateMut 0 no_write) 0]) = true.
Proof. vm_compute. reflexivity. Qed.

Example purge_test : passes Shared                                          (* 1536-1556 *)
  (news [leaf] ++ [Do (get 0)] ++ all_of 0 true true true ++ [Do (OPurge 0)] ++ all_of 0 false false false) = true.
Proof. vm_compute. reflexivity. Qed.

(** base = 0, mid = 1, end = 2 *)
Definition chain : list cmd := news [leaf_fallible; variable_node 0; variable_node 1].
Definition chain_built : list cmd := chain ++ [Do (get 2)] ++ all_of 0 true true true ++ all_of 1 true true true ++ all_of 2 true true true.

Example purge_deps_test : passes Shared                                     (* 1558-1599 *)
  (chain_built ++ [Do (OPurge 1)] ++ all_of 0 true true true ++ all_of 1 false false false ++ all_of 2 true false true) = true.
Proof. vm_compute. reflexivity. Qed.

Example clear_artifacts_test : passes Shared                                (* 1601-1621 *)
  (news [leaf] ++ [Do (get 0)] ++ all_of 0 true true true ++ [Do OClearArtifacts] ++ all_of 0 true false true) = true.
Proof. vm_compute. reflexivity. Qed.

Example clear_artifacts_deps_test : passes Shared                           (* 1623-1664 *)
  (chain_built ++ [Do OClearArtifacts] ++ all_of 0 true false true ++ all_of 1 true false true ++ all_of 2 true false true) = true.
Proof. vm_compute. reflexivity. Qed.

Example clear_all_test : passes Shared                                      (* 1666-1686 *)
  (news [leaf] ++ [Do (get 0)] ++ all_of 0 true true true ++ [Do OClearAll] ++ all_of 0 false false false) = true.
Proof. vm_compute. reflexivity. Qed.

Example clear_all_deps_test : passes Shared                                 (* 1688-1729 *)
  (chain_built ++ [Do OClearAll] ++ all_of 0 false false false ++ all_of 1 false false false ++ all_of 2 false false false) = true.
Proof. vm_compute. reflexivity. Qed.

Example invalidate_test : passes Shared                                     (* 1731-1751 *)
  (news [leaf] ++ [Do (get 0)] ++ all_of 0 true true true ++ [Do (OInvalidate 0)] ++ all_of 0 true false true) = true.
Proof. vm_compute. reflexivity. Qed.

Example invalidate_deps_test : passes Shared                                (* 1753-1794 *)
  (chain_built ++ [Do (OInvalidate 1)] ++ all_of 0 true true true ++ all_of 1 true false true ++ all_of 2 true false true) = true.
Proof. vm_compute. reflexivity. Qed.

(** base_1 = 0, base_2 = 1, mid = 2, end = 3 *)
Definition to_second (v : val) : val := match v with VPair _ b => VPair (VObj 1) b | v => v end.
Example invalidate_deps_complex_test : passes Shared                        (* 1796-1887 *)
  (news [leaf_fallible; leaf_fallible; variable_node 0; variable_node 2] ++
   [Do (get 3)] ++
   all_of 0 true true true ++ all_of 1 false false false ++ all_of 2 true true true ++ all_of 3 true true true ++
   [Do (ODynStateMut 2 to_second)] ++
   all_of 0 true true true ++ all_of 1 false false false ++ all_of 2 true false true ++ all_of 3 true false true ++
   [Do (get 3)] ++
   all_of 0 true true true ++ all_of 1 true true true ++ all_of 2 true true true ++ all_of 3 true true true ++
   [Do (OInvalidate 0)] ++
   all_of 0 true false true ++ all_of 1 true true true ++ all_of 2 true true true ++ all_of 3 true true true) = true.
Proof. vm_compute. reflexivity. Qed.

Example garbage_collection_test : passes Shared                             (* 1889-1919 *)
  (news [leaf] ++ [Do (get 0)] ++ all_of 0 true true true ++ [Count 1; Do OGc] ++ all_of 0 true true true ++
   [Count 1; Do (ODrop 0); Do OGc; Count 0]) = true.
Proof. vm_compute. reflexivity. Qed.

(** The blueprint of [mid] in the dynamic state of [end] is dropped by the first
    collection. *)
Example garbage_collection_deps_test : passes Shared                        (* 1921-1953 *)
  (chain ++ [Do (get 2); Count 3; Do (ODrop 2); Do OGc; Do (ODrop 1); Do OGc; Count 1] ++ all_of 0 true true true) = true.
Proof. vm_compute. reflexivity. Qed.

(** ** src/test.rs and src/test_impl.rs *)

Example test_leaf : passes Shared                                           (* test.rs:464-479 *)
  (news [leaf; leaf] ++ [Let 0 (get 0); Let 1 (get 0); Eq 0 1; Let 2 (get 0); Let 3 (get 1); Ne 2 3]) = true.
Proof. vm_compute. reflexivity. Qed.

Example test_leaf_boxed : passes Boxed                                      (* test.rs:481-496 *)
  (news [leaf; leaf] ++ [Let 0 (get_cloned 0); Let 1 (get_cloned 0); Eq 0 1; Let 2 (get_cloned 0); Let 3 (get_cloned 1); Ne 2 3]) = true.
Proof. vm_compute. reflexivity. Qed.

Example test_boxed : passes Boxed                                           (* test.rs:363-396 *)
  (news [leaf; leaf] ++ [Let 0 (get_ref 0); Let 1 (get_ref 0); Eq 0 1; Let 2 (get_ref 0); Let 3 (get_ref 1); Ne 2 3;
                         Let 4 (OGetMut 0 no_write); Let 5 (OGetMut 0 no_write); Eq 4 5; Let 6 (OGetMut 1 no_write); Ne 4 6]) = true.
Proof. vm_compute. reflexivity. Qed.

Definition leaf_of (r : option (option N * val)) : option val := match r with Some (_, VPair _ v) => Some v | _ => None end.
Example test_node : forallb (λ E,                                           (* test.rs:498-539 *)
    match run E 9 [OAlloc leaf; OAlloc leaf; OAlloc (simple_node 0); OAlloc (simple_node 1); OAlloc (simple_node 1);
                   OGet HBin 2; OGet HBin 2; OGet HBin 3; OGet HBin 4] init_st with
    | Some ([_; _; _; _; _; n1; n1'; n2; n3], _) =>
      bool_decide (got n1 = got n1') && negb (bool_decide (got n2 = got n3)) &&
      bool_decide (leaf_of (got n2) = leaf_of (got n3)) && bool_decide (is_Some (leaf_of (got n2)))
    | _ => false
    end) (four Shared) = true.
Proof. vm_compute. reflexivity. Qed.

(** leaf1 = 0, leaf2 = 1, nodef1..3 = 2..4, noden1..3 = 5..7 *)
Definition pyramid : list cmd :=
  news [leaf; leaf; simple_node 0; simple_node 1; simple_node 1; complex_node 2 3; complex_node 4 5; complex_node 6 6].
Definition left_of (v : val) : val := match v with VPair _ (VPair x _) => x | v => v end.
Definition right_of (v : val) : val := match v with VPair _ (VPair _ x) => x | v => v end.
Example test_complex : forallb (λ E,                                        (* test.rs:568-607 *)
    match run E 9 [OAlloc leaf; OAlloc leaf; OAlloc (simple_node 0); OAlloc (simple_node 1); OAlloc (simple_node 1);
                   OAlloc (complex_node 2 3); OAlloc (complex_node 4 5); OAlloc (complex_node 6 6);
                   OGet HBin 7; OGet HBin 7; OGet HBin 0; OGet HBin 5; OGet HBin 7] init_st with
    | Some ([_; _; _; _; _; _; _; _; r1; r2; l; n; r], _) =>
      match got r1, got r2, got l, got n, got r with
      | Some (_, r1), Some (_, r2), Some (_, l), Some (_, n), Some (_, r) =>
        bool_decide (r1 = r2) && bool_decide (left_of r = right_of r) && bool_decide (right_of (left_of r) = n) &&
        bool_decide (leaf_of (Some (None, left_of n)) = Some l)
      | _, _, _, _, _ => false
      end
    | _ => false
    end) (four Shared) = true.
Proof. vm_compute. reflexivity. Qed.

Example test_complex_clear : passes Shared                                  (* test.rs:609-647 *)
  (pyramid ++ [Let 0 (get 0); Let 1 (get 5); Let 2 (get 7); Do OClearAll; Let 12 (get 7); Let 11 (get 5); Let 10 (get 0);
               Ne 0 10; Ne 1 11; Ne 2 12]) = true.
Proof. vm_compute. reflexivity. Qed.

Example test_invalidate : passes Shared                                     (* test.rs:649-664 *)
  (news [leaf] ++ [Let 0 (get 0); Do (OInvalidate 0); Let 1 (get 0); Ne 0 1]) = true.
Proof. vm_compute. reflexivity. Qed.

Example test_into : forallb (λ E,                                           (* test.rs:666-676 *)
    match run E 9 [OAlloc leaf; OGet HBin 0; OAlloc (simple_node 0); OGet HBin 1] init_st with
    | Some ([_; l; _; n], _) =>
      match got l with Some (_, v) => bool_decide (leaf_of (got n) = Some v) | None => false end
    | _ => false
    end) (four Shared) = true.
Proof. vm_compute. reflexivity. Qed.

Example test_complex_invalidate : passes Shared                             (* test.rs:678-718 *)
  (pyramid ++ [Let 0 (get 0); Let 1 (get 5); Let 2 (get 7); Do (OInvalidate 5); Let 10 (get 0); Let 11 (get 5); Let 12 (get 7);
               Eq 0 10; Ne 1 11; Ne 2 12]) = true.
Proof. vm_compute. reflexivity. Qed.

(** ** src/multi_level_test.rs: builders as artifacts, several caches *)

(** BuilderBuilder (37-54) and SuperBuilder (58-77). *)
Definition builder_builder : bdef := BDef 10 1 (Some VUnit) (PNew leaf (λ o, PNewBin (VObj o) (λ b, PRet (Ok b)))).
Definition super_builder : bdef := BDef 11 1 (Some VUnit) (PNew builder_builder (λ o, PNewBin (VObj o) (λ b, PRet (Ok b)))).

(** One call on cache [i]; the artifact as a builder. *)
Definition mcall (E : env) (i : nat) (x : op) (m : mst) : option (out * mst) :=
  match step E 50 x (view i m) with Done r s => Some (r, put_lane i s m) | _ => None end.
Definition mnew (E : env) (d : bdef) (m : mst) : option (obj * mst) :=
  match mcall E 0 (OAlloc d) m with Some (OutObj o, m) => Some (o, m) | _ => None end.
Definition mget (E : env) (i : nat) (o : obj) (m : mst) : option (val * mst) :=
  match mcall E i (OGet HBin o) m with Some (OutRes (RvBin b), m) => Some (content (bin_val b), m) | _ => None end.
Definition as_bp (v : val) : option obj := match v with VObj o => Some o | _ => None end.
Definition eq_val (v w : val) : bool := bool_decide (v = w).

(** cache_ap = 1, cache = 0 *)
Definition level_1 (E : env) : option (list bool) :=                        (* 97-137 *)
  '(bb1, m) ← mnew E builder_builder m_init;
  '(l1, m) ← mget E 1 bb1 m; leaf1 ← as_bp l1;
  '(leaf2, m) ← mnew E leaf m;
  '(a, m) ← mget E 0 leaf1 m; '(b, m) ← mget E 0 leaf1 m;
  '(c, m) ← mget E 0 leaf2 m;
  '(l, m) ← mget E 1 bb1 m; l ← as_bp l; '(d, m) ← mget E 0 l m;
  '(_, m) ← mcall E 1 OClearAll m;
  '(l, m) ← mget E 1 bb1 m; l ← as_bp l; '(e, m) ← mget E 0 l m;
  '(f, m) ← mget E 0 leaf1 m;
  Some [eq_val a b; negb (eq_val a c); eq_val a d; negb (eq_val f e)].
Example test_level_1 : forallb (λ E, bool_decide (level_1 E = Some [true; true; true; true])) (four Shared) = true.
Proof. vm_compute. reflexivity. Qed.

Definition level_2 (i j : nat) (E : env) : option (list bool) :=            (* 140-189, 192-253 *)
  '(sb1, m) ← mnew E super_builder m_init;
  '(bb1, m) ← mnew E builder_builder m;
  '(leaf1, m) ← mnew E leaf m;
  '(a, m) ← mget E 0 leaf1 m; '(b, m) ← mget E 0 leaf1 m;
  '(x, m) ← mget E i bb1 m; x ← as_bp x; '(c, m) ← mget E 0 x m;
  '(x, m) ← mget E i bb1 m; x ← as_bp x; '(d, m) ← mget E 0 x m;
  '(y, m) ← mget E j sb1 m; y ← as_bp y; '(x, m) ← mget E i y m; x ← as_bp x; '(e, m) ← mget E 0 x m;
  '(y, m) ← mget E j sb1 m; y ← as_bp y; '(x, m) ← mget E i y m; x ← as_bp x; '(f, m) ← mget E 0 x m;
  Some [eq_val a b; negb (eq_val c a); eq_val c d; negb (eq_val e a); negb (eq_val e c); eq_val e f].
Example test_level_2 : forallb (λ E, bool_decide (level_2 1 1 E = Some [true; true; true; true; true; true])) (four Shared) = true.
Proof. vm_compute. reflexivity. Qed.
Example test_level_2_diff_caches :
  forallb (λ E, bool_decide (level_2 1 2 E = Some [true; true; true; true; true; true])) (four Shared) = true.
Proof. vm_compute. reflexivity. Qed.

(** ** The doctors: test_impl.rs:335-448 *)

(** What the doctor is told (internal.rs:257-261, 474-475): the handles of the
    builders, here with the type names of the test. *)
Definition b_handle (s : st) (o : obj) : bhandle :=
  match objs s !! o with
  | Some (d, a) => BHandle a (if (bd_aty d =? 1)%N then lit "BuilderLeaf" else lit "BuilderSimpleNode") []
  | None => BHandle 0 [] []
  end.
Definition d_event (s : st) (e : event) : list devent :=
  match e with
  | EResolve u w => [DResolve (b_handle s u) (b_handle s w)]
  | EBuilt u b => [DBuild (b_handle s u) (AHandle (bin_ptr b) (match bin_val b with VNum _ => lit "Leaf" | _ => lit "SimpleNode" end) (lit "text"))]
  | EInvalidate o => [DInvalidate (b_handle s o)]
  | EClear => [DClear]
  | _ => []
  end.
Definition told_of (s : st) : list devent := rev (trace s) ≫= d_event s.
(** leaf1 = 0, node1 = 1, node2 = 2 *)
Definition doc_ops : list op :=
  [OAlloc leaf; OAlloc (simple_node 0); OAlloc (simple_node 0);
   OGet HBin 2; OGet HBin 2; OGet HBin 1; OGet HBin 2; OGet HBin 2; OGet HBin 1].
Definition nl : text := [10%N].

(** TEXT_DOC_PATTERN_TYNM (test_impl.rs:388-393). *)
Example test_text_doc : forallb (λ E,
    match run E 9 doc_ops init_st with
    | Some (_, s) => bool_decide (td_document (TOpts false false false (λ t, t)) (told_of s) =
        lit "resolves BuilderSimpleNode -> BuilderLeaf" ++ nl ++
        lit "built #0.0  BuilderLeaf => Leaf" ++ nl ++
        lit "built #0.1  BuilderSimpleNode => SimpleNode" ++ nl ++
        lit "resolves BuilderSimpleNode -> BuilderLeaf" ++ nl ++
        lit "built #0.2  BuilderSimpleNode => SimpleNode" ++ nl)
    | None => false
    end) (four Shared) = true.
Proof. vm_compute. reflexivity. Qed.

(** VIS_DOC_PATTERN (test_impl.rs:302-332); the addresses and bins are those of this
    environment, "text" stands for the [{:#?}] text of the artifacts. *)
Example test_vis_doc :
  match run (test_env Shared true false) 9 doc_ops init_st with
  | Some (_, s) => vd_document (λ _, true) vd_default (told_of s)
  | None => None
  end = Some (
    lit "strict digraph { graph [labeljust = l];" ++ nl ++
    lit "  ""0x66"" [label = ""BuilderSimpleNode""]" ++ nl ++
    lit "  ""0x64"" [label = ""BuilderLeaf""]" ++ nl ++
    lit "  ""0x66"" -> ""0x64""" ++ nl ++
    lit "  ""0x64"" [label = ""BuilderLeaf""]" ++ nl ++
    lit "  ""0.0-0x0"" [label = ""#0.0 Leaf :" ++ nl ++
    lit "text"", shape = box]" ++ nl ++
    lit "  ""0x64"" -> ""0.0-0x0"" [arrowhead = ""none""]" ++ nl ++
    lit "  ""0x66"" [label = ""BuilderSimpleNode""]" ++ nl ++
    lit "  ""0.1-0x1"" [label = ""#0.1 SimpleNode :" ++ nl ++
    lit "text"", shape = box]" ++ nl ++
    lit "  ""0x66"" -> ""0.1-0x1"" [arrowhead = ""none""]" ++ nl ++
    lit "  ""0x65"" [label = ""BuilderSimpleNode""]" ++ nl ++
    lit "  ""0x64"" [label = ""BuilderLeaf""]" ++ nl ++
    lit "  ""0x65"" -> ""0x64""" ++ nl ++
    lit "  ""0x65"" [label = ""BuilderSimpleNode""]" ++ nl ++
    lit "  ""0.2-0x2"" [label = ""#0.2 SimpleNode :" ++ nl ++
    lit "text"", shape = box]" ++ nl ++
    lit "  ""0x65"" -> ""0.2-0x2"" [arrowhead = ""none""]" ++ nl ++
    lit "}" ++ nl).
Proof. vm_compute. reflexivity. Qed.
