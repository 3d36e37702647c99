(** Several reference caches used while one another's builders are being built: each
    is the reference cache while others run (ThreadSpec.v), and between its calls
    others make and drop builders, make bins, and take time. *)
From Verif Require Export ThreadSpec Nested.

Inductive tlife (ask : nat → N) (kd : kind) : list (op * answer) → ref → Prop :=
| tl_new : tlife ask kd [] new_ref
| tl_others l A A' : tlife ask kd l A → r_act ask [] A A' → tlife ask kd l A'
| tl_call l A x y A' :
    tlife ask kd l A → tcall ask kd x A y A' → y ≠ Panicked PkCounterpart → tlife ask kd ((x, y) :: l) A'.

(** The cache an event is about. *)
Definition cache_of (e : mevent) : nat := match e with MCall i _ _ | MDrop i => i end.
