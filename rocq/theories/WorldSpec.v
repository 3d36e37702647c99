(** Builders that look at the outside world (files, clocks, ... whatever their [build]
    reads besides their dynamic state and what they resolve), and a user who invalidates
    the readers when it has changed (C65).  Only builder programs, evaluation from scratch
    (EvalSpec.v) and the vocabulary of Spec.v are used. *)
From Verif Require Export MinSpec.

(** The outside world is one number, which a builder that asks is told; it makes of it
    what it likes, so it may look at some part of the world only. *)
Fixpoint looks (c : prog) : Prop :=
  match c with
  | PRet _ | PPanic => True
  | PResolve _ _ k => ∀ r, looks (k r)
  | PState k => ∀ v, looks (k v)
  | PNewBin _ k => ∀ b, looks (k b)
  | PAsk k => ∀ x, looks (k x)
  | PSetState _ _ | PNew _ _ | PDrop _ _ => False
  end.

(** What the program does if the world is [w]. *)
Fixpoint facing (w : N) (c : prog) : prog :=
  match c with
  | PAsk k => facing w (k w)
  | PResolve h o k => PResolve h o (λ r, facing w (k r))
  | PState k => PState (λ v, facing w (k v))
  | PNewBin x k => PNewBin x (λ b, facing w (k b))
  | PSetState v p => PSetState v (facing w p)
  | PNew d k => PNew d (λ o, facing w (k o))
  | PDrop o p => PDrop o (facing w p)
  | PRet _ | PPanic => c
  end.
Definition facing_def (w : N) (d : bdef) : bdef :=
  match d with BDef aty sty init body => BDef aty sty init (facing w body) end.
(** The builders there are, as they behave if the world is [w]. *)
Definition facing_defs (s : st) (w : N) (o : obj) : option bdef := facing_def w <$> defs s o.

(** Two programs that do the same. *)
Inductive same_code : prog → prog → Prop :=
| sc_ret r : same_code (PRet r) (PRet r)
| sc_panic : same_code PPanic PPanic
| sc_resolve h w k k' : (∀ r, same_code (k r) (k' r)) → same_code (PResolve h w k) (PResolve h w k')
| sc_state k k' : (∀ v, same_code (k v) (k' v)) → same_code (PState k) (PState k')
| sc_newbin x k k' : (∀ b, same_code (k b) (k' b)) → same_code (PNewBin x k) (PNewBin x k').
(** A builder that does not notice that the world changes from [w] to [w']. *)
Definition unnoticed (w w' : N) (d : bdef) : Prop := same_code (facing w (bd_body d)) (facing w' (bd_body d)).

(** Whatever is asked between [s] and [s'], the answer is [w]. *)
Definition hears (E : env) (w : N) (s s' : st) : Prop := ∀ t, tick s ≤ t < tick s' → e_ask E t = w.

(** Histories in which builders look at the world, and the user sees to it that nothing
    in the cache is out of date: [w] is what the cache may be asked about.  When the world
    changes, each builder does not notice or nothing that was built from it, directly or
    not, is in the cache. *)
Definition looking_op (x : op) : Prop :=
  match x with
  | OAlloc d => looks (bd_body d) ∧ ∀ w, oblivious (facing w (bd_body d))
  | OGetMut _ _ | OLookupMut _ _ => False
  | _ => True
  end.
Inductive informed (E : env) : N → st → Prop :=
| informed_new w : informed E w init_st
| informed_call w s n x s' :
    informed E w s → looking_op x → goes (step E n x s) s' →
    match x with OGet _ _ => hears E w s s' | _ => True end → informed E w (unwound s')
| informed_change w w' s :
    informed E w s →
    (∀ o d, defs s o = Some d → unnoticed w w' d ∨ ∀ u, affected s o u → cached s u = None) →
    informed E w' s.
