(** Bystanders (C69): builders that calls on other builders have nothing to do with. *)
From Verif Require Export Spec.

(** The code resolves none of [X], and makes only builders of which the same holds.  (What
    is new is not in [X].) *)
Inductive avoids (X : obj → Prop) : prog → Prop :=
| av_ret r : avoids X (PRet r)
| av_panic : avoids X PPanic
| av_resolve h w k : ¬ X w → (∀ r, avoids X (k r)) → avoids X (PResolve h w k)
| av_state k : (∀ v, avoids X (k v)) → avoids X (PState k)
| av_set v p : avoids X p → avoids X (PSetState v p)
| av_ask k : (∀ n, avoids X (k n)) → avoids X (PAsk k)
| av_newbin v k : (∀ b, avoids X (k b)) → avoids X (PNewBin v k)
| av_new d k : avoids X (bd_body d) → (∀ o, ¬ X o → avoids X (k o)) → avoids X (PNew d k)
| av_drop w p : avoids X p → avoids X (PDrop w p).

(** [X] are builders there are, the others do not resolve them, and no recorded dependency
    goes from one side to the other. *)
Record bystanders (s : st) (X : obj → Prop) : Prop := {
  by_exist : ∀ w, X w → ∃ d a, at_addr s w d a;
  by_avoid : ∀ u d a, at_addr s u d a → ¬ X u → avoids X (bd_body d);
  by_deps : ∀ u w, depends s u w → X u ↔ X w;
}.

(** Calls on other builders, and calls that only look or drop a blueprint.  Garbage
    collection may only be asked for while all of [X] are held; the cache is not cleared. *)
Definition away (X : obj → Prop) (s : st) (x : op) : Prop :=
  match x with
  | OAlloc d => avoids X (bd_body d)
  | OGet _ o | OGetMut o _ | OLookupMut o _ | ODynState o | ODynStateMut o _ | OInvalidate o | OPurge o => ¬ X o
  | OGc => ∀ w, X w → live s w
  | OClearArtifacts | OClearAll => False
  | ODrop _ | OLookup _ _ | OGetDynState _ | OIsKnown _ | ONumKnown => True
  end.

(** Nothing has happened to [X]. *)
Definition untouched (X : obj → Prop) (s s' : st) : Prop :=
  ∀ w, X w → (∀ d a, at_addr s' w d a ↔ at_addr s w d a) ∧ cached s' w = cached s w ∧ state_of s' w = state_of s w ∧ (knows s' w ↔ knows s w) ∧
    calls s' w = calls s w ∧ (∀ x, depends s' w x ↔ depends s w x) ∧ (∀ x, depends s' x w ↔ depends s x w).
