(** Builders that make builders (src/multi_level_test.rs: artifacts that are blueprints):
    evaluation from scratch for them, the specification of C66.  Only builder programs and
    the vocabulary of EvalSpec.v are used. *)
From Verif Require Export EvalSpec.

Section Make.
(** The builders that exist, the dynamic state each has ([None]: it has none and
    [init_dyn_state] panics), and the builder in whose [build] each was made ([None]: in
    none). *)
Context (B : obj → option bdef) (σ : obj → option val) (par : obj → option obj).

(** [gives o r]: evaluating builder [o] from scratch can give [r].  Every resolve evaluates
    the other builder anew.  A new bin has any address; a new builder is any builder with
    the definition asked for that was made in a [build] of this builder, but not one that
    was already made in this run ([X]). *)
Inductive gives : obj → eres → Prop :=
| gv_noinit o d : B o = Some d → σ o = None → gives o EvPanic
| gv_body o d v r : B o = Some d → σ o = Some v → gives_body o v [] (bd_body d) r → gives o r
with gives_body : obj → val → list obj → prog → eres → Prop :=
| gb_ret u v X r : gives_body u v X (PRet r) (EvRet r)
| gb_panic u v X : gives_body u v X PPanic EvPanic
| gb_resolve u v X h w k x r :
    gives w (EvRet x) → gives_body u v X (k (handed h x)) r → gives_body u v X (PResolve h w k) r
| gb_resolve_panic u v X h w k : gives w EvPanic → gives_body u v X (PResolve h w k) EvPanic
| gb_state u v X k r : gives_body u v X (k v) r → gives_body u v X (PState k) r
| gb_newbin u v X x k p r : gives_body u v X (k (Bin p x)) r → gives_body u v X (PNewBin x k) r
| gb_new u v X d k o r :
    B o = Some d → par o = Some u → o ∉ X →
    gives_body u v (o :: X) (k o) r → gives_body u v X (PNew d k) r
| gb_drop u v X w p r : gives_body u v X p r → gives_body u v X (PDrop w p) r.
End Make.

(** Builders that are functions of their dynamic state and of what they resolve, and may
    make and drop builders (which are such builders themselves). *)
Fixpoint making (c : prog) : Prop :=
  match c with
  | PRet _ | PPanic => True
  | PResolve _ _ k => ∀ r, making (k r)
  | PState k => ∀ v, making (k v)
  | PNewBin _ k => ∀ b, making (k b)
  | PNew d k => making_def d ∧ ∀ o, making (k o)
  | PDrop _ p => making p
  | PSetState _ _ | PAsk _ => False
  end
with making_def (d : bdef) : Prop := match d with BDef _ _ _ body => making body end.

(** Histories in which all builders are such, and artifacts are not changed by the user. *)
Definition making_op (s : st) (x : op) : Prop :=
  match x with
  | OAlloc d => making_def d
  | OGetMut _ _ | OLookupMut _ _ => False
  | _ => True
  end.
(** A builder the user made. *)
Definition users (l : list (op * answer)) (o : obj) : Prop := ∃ d, (OAlloc d, Returned (OutObj o)) ∈ l.

(** ** Equality up to the addresses of bins and to the names of builders: [R] says which
    builder on the right stands for which on the left. *)
Section Agree.
Context (R : obj → obj → Prop).
Inductive same_val : val → val → Prop :=
| sv_unit : same_val VUnit VUnit
| sv_num n : same_val (VNum n) (VNum n)
| sv_obj o o' : R o o' → same_val (VObj o) (VObj o')
| sv_bin p p' v v' : same_val v v' → same_val (VBin p v) (VBin p' v')
| sv_none : same_val VNone VNone
| sv_some v v' : same_val v v' → same_val (VSome v) (VSome v')
| sv_pair v v' w w' : same_val v v' → same_val w w' → same_val (VPair v w) (VPair v' w').
Definition same_bin (b b' : bin) : Prop := same_val (bin_val b) (bin_val b').
Inductive same_res : result → result → Prop :=
| sr_ok b b' : same_bin b b' → same_res (Ok b) (Ok b')
| sr_err e e' : same_val e e' → same_res (Err e) (Err e').
Inductive same_rval : rval → rval → Prop :=
| sq_bin b b' : same_bin b b' → same_rval (RvBin b) (RvBin b')
| sq_val v v' : same_val v v' → same_rval (RvVal v) (RvVal v')
| sq_err e e' : same_val e e' → same_rval (RvErr e) (RvErr e').
Inductive same_eres : eres → eres → Prop :=
| se_ret r r' : same_res r r' → same_eres (EvRet r) (EvRet r')
| se_panic : same_eres EvPanic EvPanic.
Inductive same_opt : option val → option val → Prop :=
| so_none : same_opt None None
| so_some v v' : same_val v v' → same_opt (Some v) (Some v').

(** Programs that do the same. *)
Inductive acts_as : prog → prog → Prop :=
| ag_ret r r' : same_res r r' → acts_as (PRet r) (PRet r')
| ag_panic : acts_as PPanic PPanic
| ag_resolve h w w' k k' :
    R w w' → (∀ x x', same_rval x x' → acts_as (k x) (k' x')) → acts_as (PResolve h w k) (PResolve h w' k')
| ag_state k k' : (∀ v v', same_val v v' → acts_as (k v) (k' v')) → acts_as (PState k) (PState k')
| ag_newbin x x' k k' :
    same_val x x' → (∀ p p', acts_as (k (Bin p x)) (k' (Bin p' x'))) → acts_as (PNewBin x k) (PNewBin x' k')
| ag_new d d' k k' : acts_as_def d d' → (∀ o o', R o o' → acts_as (k o) (k' o')) → acts_as (PNew d k) (PNew d' k')
| ag_drop w w' p p' : R w w' → acts_as p p' → acts_as (PDrop w p) (PDrop w' p')
with acts_as_def : bdef → bdef → Prop :=
| ag_def aty sty init init' body body' :
    same_opt init init' → acts_as body body' → acts_as_def (BDef aty sty init body) (BDef aty sty init' body').
End Agree.

(** Two worlds of builders that correspond by [R]: related builders do the same and have
    related states; and builders with the same definition that were made by related
    builders are related. *)
Record correspond (R : obj → obj → Prop) (B B' : obj → option bdef) (σ σ' : obj → option val)
    (par par' : obj → option obj) : Prop := {
  co_defs o o' d d' : R o o' → B o = Some d → B' o' = Some d' → acts_as_def R d d';
  co_states o o' : R o o' → same_opt R (σ o) (σ' o');
  co_made u u' o o' d d' :
    R u u' → par o = Some u → par' o' = Some u' → B o = Some d → B' o' = Some d' → acts_as_def R d d' → R o o';
}.
