(** Vocabulary for C56, the identity of bins: which bins something contains, and
    programs that do not forge bins. *)
From Verif Require Export Utils Spec.

(** [b] is inside the value [v]: [v] stores it, or stores a bin it is inside of. *)
Fixpoint inside (b : bin) (v : val) : Prop :=
  match v with
  | VBin p x => b = Bin p x ∨ inside b x
  | VSome x => inside b x
  | VPair x y => inside b x ∨ inside b y
  | VUnit | VNum _ | VObj _ | VNone => False
  end.
(** The bin itself, or one inside of its content. *)
Definition in_bin (b c : bin) : Prop := b = c ∨ inside b (bin_val c).
Definition in_rval (b : bin) (r : rval) : Prop :=
  match r with RvBin c => in_bin b c | RvVal v | RvErr v => inside b v end.
Definition in_result (b : bin) (r : result) : Prop :=
  match r with Ok c => in_bin b c | Err v => inside b v end.
(** … in what a call answers. *)
Definition in_answer (b : bin) (a : answer) : Prop :=
  match a with
  | Returned (OutRes r) | Returned (OutOpt (Some r)) => in_rval b r
  | Returned (OutVal v) | Returned (OutOptVal (Some v)) => inside b v
  | _ => False
  end.
(** … in an event. *)
Definition in_event (b : bin) (e : event) : Prop :=
  match e with
  | EGot _ _ r => in_rval b r
  | EBuilt _ c => in_bin b c
  | EFailed _ v => inside b v
  | ECall _ | EResolve _ _ | EInvalidate _ | EClear => False
  end.
(** … in the cache: in an artifact, or in a dynamic state. *)
Definition in_cache (b : bin) (s : st) : Prop :=
  (∃ o c, cached s o = Some c ∧ in_bin b c) ∨ (∃ o v, state_of s o = Some v ∧ inside b v).

(** Rust code can get at a bin only by making it ([Rc::new]) or by being given it.
    [unforged X p]: the code [p], which holds (at most) the bins [X], hands on no
    others than these, those it makes and those it is given. *)
Fixpoint unforged (X : bin → Prop) (p : prog) : Prop :=
  match p with
  | PRet r => ∀ b, in_result b r → X b
  | PPanic => True
  | PResolve h w k => ∀ r, unforged (λ b, X b ∨ in_rval b r) (k r)
  | PState k => ∀ v, unforged (λ b, X b ∨ inside b v) (k v)
  | PSetState v p => (∀ b, inside b v → X b) ∧ unforged X p
  | PAsk k => ∀ n, unforged X (k n)
  | PNewBin v k => (∀ b, inside b v → X b) ∧ ∀ i, unforged (λ b, X b ∨ b = Bin i v) (k (Bin i v))
  | PNew d k => unforged_def X d ∧ ∀ o, unforged X (k o)
  | PDrop w p => unforged X p
  end
with unforged_def (X : bin → Prop) (d : bdef) : Prop :=
  match d with
  | BDef _ _ init body => (∀ v b, init = Some v → inside b v → X b) ∧ unforged X body
  end.

(** The same for what the user passes to a call. *)
Definition unforged_op (X : bin → Prop) (x : op) : Prop :=
  match x with
  | OAlloc d => unforged_def X d
  | OGetMut _ f | OLookupMut _ f | ODynStateMut _ f => ∀ v b, inside b (f v) → X b ∨ inside b v
  | _ => True
  end.

(** The bins that a user who started with the bins [X] holds after the calls [l]
    (newest first). *)
Definition held (X : bin → Prop) (l : list (op * answer)) (b : bin) : Prop :=
  X b ∨ ∃ x a, (x, a) ∈ l ∧ in_answer b a.
(** A user who forges no bins. *)
Fixpoint honest (X : bin → Prop) (l : list (op * answer)) : Prop :=
  match l with
  | [] => True
  | (x, _) :: l' => honest X l' ∧ unforged_op (held X l') x
  end.

(** The bins the user makes on their own (to give them to a ConstBuilder, say).
    As their contents never change, they can be made at the start: with the
    identities below [n], each for one bin. *)
Definition own_bins (X : bin → Prop) (n : N) : Prop :=
  (∀ b, X b → (bin_ptr b < n)%N) ∧ (∀ b c, X b → X c → bin_ptr b = bin_ptr c → b = c) ∧
  (∀ b c, X c → inside b (bin_val c) → X b).
Definition start (n : N) : st := set_nbin n init_st.

(** The builders of this crate that put their artifact into a bin of their own. *)
Definition own_bin (d : bdef) : Prop :=
  (∃ aty sty w, d = cloned aty sty w) ∨ (∃ aty sty v, d = configurable aty sty v) ∨
  (∃ aty sty p, d = simple aty sty p).

(** All that a user can see: the bins held, those in the cache, and those that
    were handed around while builders ran. *)
Definition around (X : bin → Prop) (l : list (op * answer)) (s : st) (b : bin) : Prop :=
  held X l b ∨ in_cache b s ∨ ∃ e, e ∈ trace s ∧ in_event b e.
