(** What the code of a builder can do, whatever it is handed: vocabulary for
    C39 and for the builders of src/utils.rs. *)
From Verif Require Export Spec.
From stdpp Require Import relations.

(** One step of a program, with any answer it could be given. *)
Inductive leads : prog → prog → Prop :=
| ld_got h w k b : leads (PResolve h w k) (k (conv h b))
| ld_err h w k e : leads (PResolve h w k) (k (RvErr e))
| ld_state k v : leads (PState k) (k v)
| ld_set v p : leads (PSetState v p) p
| ld_ask k n : leads (PAsk k) (k n)
| ld_newbin v k i : leads (PNewBin v k) (k (Bin i v))
| ld_new d k o : leads (PNew d k) (k o)
| ld_drop w p : leads (PDrop w p) p.

(** The [build] of [d] can get to return [r] / to resolve [w] / to set its
    state to [v]. *)
Definition reaches (d : bdef) (p : prog) : Prop := rtc leads (bd_body d) p.
Definition can_return (d : bdef) (r : result) : Prop := reaches d (PRet r).
Definition can_resolve (d : bdef) (w : obj) : Prop := ∃ h k, reaches d (PResolve h w k).
Definition can_set (d : bdef) (v : val) : Prop := ∃ p, reaches d (PSetState v p).

(** The code of the builder [o]. *)
Definition codes (s : st) (o : obj) (P : bdef → Prop) : Prop := ∃ d a, at_addr s o d a ∧ P d.

(** An event that the code of the builders allows. *)
Definition allowed (s : st) (e : event) : Prop :=
  match e with
  | ECall o => codes s o (λ _, True)
  | EResolve u w => codes s u (λ d, can_resolve d w)
  | EGot u w r => codes s u (λ d, ∃ h k, reaches d (PResolve h w k) ∧ ((∃ b, r = conv h b) ∨ ∃ e, r = RvErr e))
  | EBuilt o b => codes s o (λ d, can_return d (Ok b))
  | EFailed o e => codes s o (λ d, can_return d (Err e))
  | EInvalidate _ | EClear => True
  end.

(** [plays p0 v0 l p v]: running the program [p0] from dynamic state [v0], it
    can get to [p] with dynamic state [v], having been given [l] (newest first)
    by the builders it resolved.  What new bins, new builders and the outside
    world give is arbitrary. *)
Inductive plays (p0 : prog) (v0 : val) : list (obj * rval) → prog → val → Prop :=
| pl_start : plays p0 v0 [] p0 v0
| pl_got l h w k v b : plays p0 v0 l (PResolve h w k) v → plays p0 v0 ((w, conv h b) :: l) (k (conv h b)) v
| pl_err l h w k v e : plays p0 v0 l (PResolve h w k) v → plays p0 v0 ((w, RvErr e) :: l) (k (RvErr e)) v
| pl_state l k v : plays p0 v0 l (PState k) v → plays p0 v0 l (k v) v
| pl_set l x p v : plays p0 v0 l (PSetState x p) v → plays p0 v0 l p x
| pl_ask l k n v : plays p0 v0 l (PAsk k) v → plays p0 v0 l (k n) v
| pl_newbin l x k i v : plays p0 v0 l (PNewBin x k) v → plays p0 v0 l (k (Bin i x)) v
| pl_new l d k o v : plays p0 v0 l (PNew d k) v → plays p0 v0 l (k o) v
| pl_drop l w p v : plays p0 v0 l (PDrop w p) v → plays p0 v0 l p v.

(** What [u] was given since its [build] was entered for the last time. *)
Fixpoint gots (u : obj) (t : list event) : list (obj * rval) :=
  match t with
  | [] => []
  | ECall o :: t => if decide (o = u) then [] else gots u t
  | EGot o w r :: t => if decide (o = u) then (w, r) :: gots u t else gots u t
  | _ :: t => gots u t
  end.

(** The user does not change the artifact of [o]. *)
Definition unmutated (o : obj) (s : st) (x : op) : Prop :=
  match x with OGetMut w _ | OLookupMut w _ => w ≠ o | _ => True end.

(** The builder [o] resolves nothing. *)
Definition leaf (s : st) (o : obj) : Prop := ∀ d a w, at_addr s o d a → ¬ can_resolve d w.
