(** Adaptors (C68): putting ForwardingBuilders, ClonedBuilders and FeigningBuilders between
    builders, or taking them out.  Nothing of the model of the cache is used here, only
    builder programs. *)
From Verif Require Export EvalSpec Utils.
From stdpp Require Import relations.

(** Evaluating [w] (from scratch) gives no error: as its type says if its [Err] is
    [Never]. *)
Definition never_fails (B : obj → option bdef) (σ : obj → option val) (w : obj) : Prop :=
  ∀ e, ¬ evals B σ w (EvRet (Err e)).

(** [o] is an adaptor around [w]. *)
Definition wraps (s : st) (o w : obj) : Prop :=
  ∃ aty sty,
    defs s o = Some (forwarding aty sty w) ∨ defs s o = Some (cloned aty sty w) ∨
    defs s o = Some (feigning aty sty w) ∧ never_fails (defs s) (config s) w.

(** The same code, but for which builders are resolved: those that correspond by [R]. *)
Inductive rewired (R : obj → obj → Prop) : prog → prog → Prop :=
| rw_ret r : rewired R (PRet r) (PRet r)
| rw_panic : rewired R PPanic PPanic
| rw_resolve h w w' k k' : R w w' → (∀ x, rewired R (k x) (k' x)) → rewired R (PResolve h w k) (PResolve h w' k')
| rw_state k k' : (∀ v, rewired R (k v) (k' v)) → rewired R (PState k) (PState k')
| rw_newbin x k k' : (∀ b, rewired R (k b) (k' b)) → rewired R (PNewBin x k) (PNewBin x k').

(** With any number of adaptors around them, [o] in [s] and [o'] in [s'] are builders that
    correspond by [C]. *)
Definition wrapped (s s' : st) (C : obj → obj → Prop) (o o' : obj) : Prop :=
  ∃ w w', rtc (wraps s) o w ∧ rtc (wraps s') o' w' ∧ C w w'.

(** Builders that correspond by [C] have the same dynamic state, and the same code but for
    adaptors around the builders that it resolves. *)
Definition same_but_adaptors (s s' : st) (C : obj → obj → Prop) : Prop :=
  ∀ w w', C w w' → config s w = config s' w' ∧
    ∃ d d', defs s w = Some d ∧ defs s' w' = Some d' ∧ rewired (wrapped s s' C) (bd_body d) (bd_body d').
