(** Artifacts changed in place (src/cache.rs:447-458 [lookup_mut], 607-618 [get_mut]):
    histories in which the user does that, and what there is to be computed then (C63).
    Only the vocabulary of Spec.v and evaluation from scratch (EvalSpec.v) are used. *)
From Verif Require Export MinSpec.

(** Builders whose artifact the user has changed ([P]) are taken to just give the
    artifact that the cache has for them. *)
Definition edited_def (M : obj → option bin) (o : obj) (d : bdef) : bdef :=
  match d with
  | BDef aty sty init body => BDef aty sty init match M o with Some b => PRet (Ok b) | None => body end
  end.
Definition artifacts_of (s : st) (P : gset obj) (o : obj) : option bin := if decide (o ∈ P) then cached s o else None.
Definition edited_defs (s : st) (P : gset obj) (o : obj) : option bdef := edited_def (artifacts_of s P) o <$> defs s o.

(** The builders whose artifact in the cache has been changed since it was built: [x] is
    the last call, from [s] to [s'].  Those from before, as long as they are in the cache
    and have not been built again; and what [x] itself hands out to be changed. *)
Definition changed_by (x : op) (s' : st) : gset obj :=
  match x with
  | OGetMut o _ | OLookupMut o _ => if decide (is_Some (cached s' o)) then {[o]} else ∅
  | _ => ∅
  end.
Definition edits (P : gset obj) (x : op) (s s' : st) : gset obj :=
  filter (λ o, is_Some (cached s' o) ∧ calls s' o = calls s o) P ∪ changed_by x s'.

(** Builders are functions of their dynamic state and of what they resolve (as for C01);
    the user can do anything else. *)
Definition pure_alloc (x : op) : Prop :=
  match x with OAlloc d => pure_prog (bd_body d) ∧ oblivious (bd_body d) | _ => True end.
Inductive edited (E : env) : gset obj → st → Prop :=
| edited_new : edited E ∅ init_st
| edited_call P s n x s' :
    edited E P s → pure_alloc x → goes (step E n x s) s' → edited E (edits P x s s') (unwound s').
