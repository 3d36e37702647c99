(** How much the cache stores. *)
From Verif Require Export Spec.
From stdpp Require Import relations.

(** Entries of a table of sets: one for each key and one for each element. *)
Definition weigh (m : gmap addr (gset addr)) : nat := map_fold (λ _ (X : gset addr) n, S (size X) + n) 0 m.
(** All entries in the tables of the cache (internal.rs:92-147); the memory it uses
    is proportional to that, and to the sizes of artifacts and dynamic states. *)
Definition footprint (s : st) : nat :=
  size (artifacts (ch s)) + size (dyn_states (ch s)) + size (known (ch s)) + size (leafs (ch s)) +
  weigh (dependents (ch s)) + weigh (dependencies (ch s)).

(** The dependencies the cache recorded, as a finite set. *)
Definition all_deps (s : st) (D : gset (obj * obj)) : Prop := ∀ u w, (u, w) ∈ D ↔ depends s u w.

(** Ids of builders the cache does not know any more but remembers as leafs. *)
Definition left_over (s : st) : gset addr := leafs (ch s) ∖ dom (known (ch s)).

(** Calls that may leave an id behind. *)
Definition litters (x : op) : bool := match x with OPurge _ | OInvalidate _ | OLookupMut _ _ => true | _ => false end.
(** How many of them there were since the cache was cleared (newest first). *)
Fixpoint litter (l : list (op * answer)) : nat :=
  match l with
  | [] => 0
  | (OClearAll, _) :: _ => 0
  | (x, _) :: l => (if litters x then 1 else 0) + litter l
  end.
