(** Code that computes the same (C71). *)
From Verif Require Export EvalSpec.

(** Running [c] with dynamic state [v], if what it resolves gives the answers [ρ] (where it
    gives any).  New bins may be anywhere. *)
Inductive yields (ρ : obj → option eres) (v : val) : prog → eres → Prop :=
| y_ret r : yields ρ v (PRet r) (EvRet r)
| y_panic : yields ρ v PPanic EvPanic
| y_resolve h w k x r : ρ w = Some (EvRet x) → yields ρ v (k (handed h x)) r → yields ρ v (PResolve h w k) r
| y_resolve_panic h w k : ρ w = Some EvPanic → yields ρ v (PResolve h w k) EvPanic
| y_state k r : yields ρ v (k v) r → yields ρ v (PState k) r
| y_newbin x k p r : yields ρ v (k (Bin p x)) r → yields ρ v (PNewBin x k) r.

(** Whatever they are answered, the results are the same (up to addresses of bins): they
    may resolve in another order, in another way, more or less often, or other builders. *)
Definition computes_same (c c' : prog) : Prop :=
  ∀ ρ v r r', yields ρ v c r → yields ρ v c' r' → strip_eres r = strip_eres r'.

(** The same builders with the same dynamic states, but for how their code is written. *)
Record same_but_code (s s' : st) : Prop := {
  sc_config : ∀ o, config s o = config s' o;
  sc_code : ∀ o d d', defs s o = Some d → defs s' o = Some d' → computes_same (bd_body d) (bd_body d');
}.

(** The answers that suffice for the one suffice for the other: it resolves nothing else. *)
Definition needs_no_more (c c' : prog) : Prop :=
  ∀ ρ v r, yields ρ v c r → ∃ r', yields ρ v c' r'.
(** [s'] has all builders of [s], and their code there resolves nothing else. *)
Definition no_more_needed (s s' : st) : Prop :=
  ∀ o d, defs s o = Some d → ∃ d', defs s' o = Some d' ∧ needs_no_more (bd_body d) (bd_body d').
