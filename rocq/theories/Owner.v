(** Who keeps a builder alive.

    A builder lives as long as someone holds a [Blueprint] (or promise) of it: the
    user's program, another builder (in its fields), or a value in the cache, that is
    an artifact or a dynamic state.  In the other files builders are dropped at the
    user's whim ([ODrop]); here they are dropped exactly when nobody holds them any
    more, which is what the counts of [Rc] and [Arc] do (src/canning.rs:394-541,
    src/blueprint.rs).  The cache itself only has weak references
    (src/cache/internal.rs:96-146).

    Simplification: values dropped in the middle of [garbage_collection] drop the
    builders they held right after it.  This makes no difference: it looks for
    unreachable builders first (internal.rs:898-903) and only then removes something. *)
From Verif Require Export Spec.
From stdpp Require Import relations.

(** The builders of which a value holds a blueprint. *)
Fixpoint mentions (v : val) : gset obj :=
  match v with
  | VUnit | VNum _ | VNone => ∅
  | VObj o => {[o]}
  | VBin _ v | VSome v => mentions v
  | VPair v w => mentions v ∪ mentions w
  end.

(** [w] is held by the artifact or dynamic state the cache keeps for [v]. *)
Definition holds (s : st) (v w : obj) : Prop :=
  (∃ b, cached s v = Some b ∧ w ∈ mentions (bin_val b)) ∨ (∃ x, state_of s v = Some x ∧ w ∈ mentions x).

Section Owner.
(** [K u]: the builders held by the builder [u] in its own fields.  [R]: those held by
    the user, including those in values and bins the user keeps. *)
Context (E : env) (K : obj → gset obj) (R : gset obj).

(** A builder can only be made of blueprints that exist already. *)
Definition older : Prop := ∀ u w, w ∈ K u → (w < u)%N.

Definition held (s : st) (w : obj) : Prop :=
  w ∈ R ∨ (∃ v, holds s v w) ∨ (∃ u, live s u ∧ w ∈ K u).
(** Alive is what is held. *)
Definition settled (s : st) : Prop := ∀ w, live s w ↔ held s w.

(** Dropping builders that are no longer held, one after the other, until there are
    none. *)
Inductive settles : st → st → Prop :=
| settles_done s : settled s → settles s s
| settles_drop s w n s1 s2 :
    live s w → ¬ held s w → step E n (ODrop w) s = Done OutUnit s1 → settles s1 s2 → settles s s2.

(** Calling [garbage_collection] [n] times. *)
Inductive rounds : nat → st → st → Prop :=
| rounds_O s : rounds 0 s s
| rounds_S n m s s1 s2 s3 :
    step E m OGc s = Done OutUnit s1 → settles s1 s2 → rounds n s2 s3 → rounds (S n) s s3.

(** Builders the user holds, directly or through other builders. *)
Definition rooted (w : obj) : Prop := ∃ x, x ∈ R ∧ rtc (λ x y, y ∈ K x) x w.

(** As long as [v] is in the cache, [w] cannot be collected: [v] depends on [w], or
    the artifact or state of [v] holds it, directly or through other builders. *)
Definition blocks (s : st) (v w : obj) : Prop :=
  depends s v w ∨ ∃ x, holds s v x ∧ rtc (λ x y, y ∈ K x) x w.

(** [w] is not held by the user, and what blocks it is doomed as well. *)
Inductive doomed (s : st) (w : obj) : Prop :=
| doom : ¬ rooted w → (∀ v, blocks s v w → doomed s v) → doomed s w.
End Owner.
