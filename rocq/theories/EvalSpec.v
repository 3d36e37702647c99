(** Evaluating a builder from scratch, without any cache: the specification for
    cache transparency (C01).  Nothing of the model of the cache is used here,
    only builder programs. *)
From Verif Require Export Spec.

(** What a builder gives: it returns (an artifact or an error), or panics. *)
Inductive eres := EvRet (r : result) | EvPanic.

(** What is handed to a builder that resolves another one which gave [r]. *)
Definition handed (h : how) (r : result) : rval :=
  match r with Ok b => conv h b | Err e => RvErr e end.

Section Eval.
(** The builders that exist, and the dynamic state each has ([None]: it has
    none and [init_dyn_state] panics). *)
Context (B : obj → option bdef) (σ : obj → option val).

(** [evals o r]: evaluating builder [o] from scratch can give [r].  Every
    resolve evaluates the other builder anew.  A new bin has any address. *)
Inductive evals : obj → eres → Prop :=
| ev_noinit o d : B o = Some d → σ o = None → evals o EvPanic
| ev_body o d v r : B o = Some d → σ o = Some v → evals_body v (bd_body d) r → evals o r
with evals_body : val → prog → eres → Prop :=
| eb_ret v r : evals_body v (PRet r) (EvRet r)
| eb_panic v : evals_body v PPanic EvPanic
| eb_resolve v h w k x r : evals w (EvRet x) → evals_body v (k (handed h x)) r → evals_body v (PResolve h w k) r
| eb_resolve_panic v h w k : evals w EvPanic → evals_body v (PResolve h w k) EvPanic
| eb_state v k r : evals_body v (k v) r → evals_body v (PState k) r
| eb_newbin v x k p r : evals_body v (k (Bin p x)) r → evals_body v (PNewBin x k) r.

(** The same as a program: [p] is the next address; [None]: deeper than [n], or
    not a pure program. *)
Fixpoint eval_body (rec : obj → N → option (eres * N)) (v : val) (c : prog) (p : N) : option (eres * N) :=
  match c with
  | PRet r => Some (EvRet r, p)
  | PPanic => Some (EvPanic, p)
  | PResolve h w k =>
    match rec w p with
    | Some (EvRet x, p') => eval_body rec v (k (handed h x)) p'
    | Some (EvPanic, p') => Some (EvPanic, p')
    | None => None
    end
  | PState k => eval_body rec v (k v) p
  | PNewBin x k => eval_body rec v (k (Bin p x)) (N.succ p)
  | _ => None
  end.
Fixpoint eval (n : nat) (o : obj) (p : N) : option (eres * N) :=
  match n with
  | O => None
  | S n =>
    match B o, σ o with
    | Some d, Some v => eval_body (eval n) v (bd_body d) p
    | Some d, None => Some (EvPanic, p)
    | None, _ => None
    end
  end.
End Eval.

(** Builders that are functions of their dynamic state and of what they
    resolve: they do not change their state, do not look at the outside world,
    and neither create nor drop builders. *)
Fixpoint pure_prog (c : prog) : Prop :=
  match c with
  | PRet _ | PPanic => True
  | PResolve _ _ k => ∀ r, pure_prog (k r)
  | PState k => ∀ v, pure_prog (k v)
  | PNewBin _ k => ∀ b, pure_prog (k b)
  | PSetState _ _ | PAsk _ | PNew _ _ | PDrop _ _ => False
  end.

(** Equality up to the addresses of bins. *)
Fixpoint strip (v : val) : val :=
  match v with
  | VBin _ v => VBin 0 (strip v)
  | VSome v => VSome (strip v)
  | VPair v w => VPair (strip v) (strip w)
  | _ => v
  end.
Definition strip_bin (b : bin) : bin := Bin 0 (strip (bin_val b)).
Definition strip_res (r : result) : result := match r with Ok b => Ok (strip_bin b) | Err e => Err (strip e) end.
Definition strip_rval (r : rval) : rval :=
  match r with RvBin b => RvBin (strip_bin b) | RvVal v => RvVal (strip v) | RvErr e => RvErr (strip e) end.
Definition strip_eres (r : eres) : eres := match r with EvRet r => EvRet (strip_res r) | EvPanic => EvPanic end.

(** Two programs behave the same up to addresses of bins. *)
Inductive alike : prog → prog → Prop :=
| al_ret r r' : strip_res r = strip_res r' → alike (PRet r) (PRet r')
| al_panic : alike PPanic PPanic
| al_resolve h w k k' : (∀ x x', strip_rval x = strip_rval x' → alike (k x) (k' x')) → alike (PResolve h w k) (PResolve h w k')
| al_state k k' : (∀ v, alike (k v) (k' v)) → alike (PState k) (PState k')
| al_newbin x x' k k' : strip x = strip x' → (∀ p p', alike (k (Bin p x)) (k' (Bin p' x'))) → alike (PNewBin x k) (PNewBin x' k').
(** A program that does not depend on the addresses of bins. *)
Definition oblivious (c : prog) : Prop := alike c c.

(** The builders of a state, and the dynamic state each would be built with:
    the one the cache has, else the initial one. *)
Definition defs (s : st) (o : obj) : option bdef := fst <$> objs s !! o.
Definition config (s : st) (o : obj) : option val :=
  match state_of s o with Some v => Some v | None => initial s o end.

(** Histories in which all builders are pure (and do not depend on addresses),
    and artifacts are not changed by the user. *)
Definition pure_op (s : st) (x : op) : Prop :=
  match x with
  | OAlloc d => pure_prog (bd_body d)
  | OGetMut _ _ | OLookupMut _ _ => False
  | _ => True
  end.
Definition pure_oblivious_op (s : st) (x : op) : Prop :=
  match x with
  | OAlloc d => pure_prog (bd_body d) ∧ oblivious (bd_body d)
  | OGetMut _ _ | OLookupMut _ _ => False
  | _ => True
  end.
