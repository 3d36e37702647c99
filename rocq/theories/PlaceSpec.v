(** Where builders are in memory (C70). *)
From Verif Require Export Spec.

(** Code that does not look at the outside world, nor does that of builders it makes.
    (In the model the allocator is part of the outside world.) *)
Inductive unasking : prog → Prop :=
| ua_ret r : unasking (PRet r)
| ua_panic : unasking PPanic
| ua_resolve h w k : (∀ r, unasking (k r)) → unasking (PResolve h w k)
| ua_state k : (∀ v, unasking (k v)) → unasking (PState k)
| ua_set v p : unasking p → unasking (PSetState v p)
| ua_newbin v k : (∀ b, unasking (k b)) → unasking (PNewBin v k)
| ua_new d k : unasking (bd_body d) → (∀ o, unasking (k o)) → unasking (PNew d k)
| ua_drop w p : unasking p → unasking (PDrop w p).

(** Two kinds of histories: without garbage collection; and without the calls that make it
    panic (see C09): purging, and invalidating what is not in the cache. *)
Definition uncollected (s : st) (x : op) : Prop :=
  match x with OAlloc d => unasking (bd_body d) | OGc => False | _ => True end.
Definition tidy (s : st) (x : op) : Prop :=
  match x with
  | OAlloc d => unasking (bd_body d)
  | OPurge _ => False
  | OInvalidate o | OLookupMut o _ => knows s o
  | _ => True
  end.

(** All is the same but for the addresses of builders. *)
Record same_but_places (s s' : st) : Prop := {
  sp_def : ∀ o d, (∃ a, at_addr s o d a) ↔ (∃ a, at_addr s' o d a);
  sp_live : ∀ o, live s o ↔ live s' o;
  sp_cached : ∀ o, cached s o = cached s' o;
  sp_state : ∀ o, state_of s o = state_of s' o;
  sp_knows : ∀ o, knows s o ↔ knows s' o;
  sp_depends : ∀ u w, depends s u w ↔ depends s' u w;
  sp_trace : trace s = trace s';
}.

(** An allocator that never gives the same address twice. *)
Definition never_reuses (E : env) : Prop := ∀ t t', e_ask E t = e_ask E t' → t = t'.
