(** Histories of a cache and the memory behind them.

    Owned.v says which builders are alive by who holds blueprints of them, and Build.v
    [alloc] says where a new builder can be.  Rc.v is the memory that decides both:
    allocations with counts of strong and weak references.  Here is when a memory
    (Rc.v [world]) is one a cache and its user (Owned.v) can be working on.

    The memory consists of the builders; the blueprints held by the user, by running
    code and by artifacts and dynamic states, and the weak references of the cache
    (src/cache/internal.rs:142, [known_builders]) are the pool.
    Simplification: artifacts and dynamic states are not themselves put into the
    memory, only the blueprints in them. *)
From Verif Require Export Owned.
From Verif Require Import Rc.

Section Memory.
(** [pk]: [Rc] or [Arc]. *)
Context (fields : bdef → gset obj) (pk : ptrkind).

(** [U]: the builders of which user and running code hold blueprints. *)
Record mirrors (U : gset obj) (s : st) (w : world) : Prop := {
  mi_next : next (mm w) = nobj s;
  (** blueprints and weak references, nothing else *)
  mi_only : ∀ x, x ∈ pool w → (∃ h, x = TBp h) ∨ (∃ h, x = TPtr h ∧ is_weak h = true);
  (** a blueprint of [o] is there if user, running code, or an artifact or dynamic
      state in the cache hold one *)
  mi_held : ∀ o, (∃ h, TBp h ∈ pool w ∧ h_id h = o) ↔ o ∈ U ∨ ∃ v, holds s v o;
  (** a weak reference if the cache knows [o] *)
  mi_weak : ∀ a o, (∃ h, TPtr h ∈ pool w ∧ h_ptr h = a ∧ h_id h = o) ↔ known (ch s) !! a = Some o;
  (** an allocation is a builder, at its address; if it has not been dropped it has
      the blueprints in its fields *)
  mi_blk : ∀ p b, heap (mm w) !! p = Some b →
    ∃ d, objs s !! k_id b = Some (d, p) ∧ k_kind b = pk ∧ (∀ h, h ∈ k_owns b → ∃ t, h_view h = AsBin t) ∧
      (0 < k_strong b → ∀ o, (∃ h, h ∈ k_owns b ∧ h_id h = o) ↔ o ∈ fields d);
}.

(** In the memory, the builder [o] is at [p] and has not been dropped. *)
Definition in_place (w : world) (o : obj) (p : addr) : Prop :=
  ∃ b, heap (mm w) !! p = Some b ∧ k_id b = o ∧ 0 < k_strong b.
End Memory.
