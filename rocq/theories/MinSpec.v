(** Which builders have to be built: the specification for minimal rebuilding (C51).
    Only builder programs and evaluation from scratch (EvalSpec.v) are used. *)
From Verif Require Export EvalSpec.

Section Min.
Context (B : obj → option bdef) (σ : obj → option val).

(** Evaluating the program [p] (with dynamic state [v]) from scratch, it resolves [w] at some point. *)
Inductive asks_body : val → prog → obj → Prop :=
| ab_here v h w k : asks_body v (PResolve h w k) w
| ab_later v h w k x z : evals B σ w (EvRet x) → asks_body v (k (handed h x)) z → asks_body v (PResolve h w k) z
| ab_state v k z : asks_body v (k v) z → asks_body v (PState k) z
| ab_newbin v x k p z : asks_body v (k (Bin p x)) z → asks_body v (PNewBin x k) z.
Definition asks (u w : obj) : Prop := ∃ d v, B u = Some d ∧ σ u = Some v ∧ asks_body v (bd_body d) w.

(** To get [o], when the artifacts of the builders in [C] are at hand: [o], unless it
    is at hand; and whatever a wanted builder asks for, unless it is at hand. *)
Inductive wanted (C : obj → Prop) (o : obj) : obj → Prop :=
| wanted_top : ¬ C o → wanted C o o
| wanted_sub u w : wanted C o u → asks u w → ¬ C w → wanted C o w.
End Min.

(** The cache has an artifact of [w]. *)
Definition has (s : st) (w : obj) : Prop := cached s w ≠ None.
