(** Vocabulary for C41, C42 and C43: histories in which every panic is caught,
    also the internal ones ("counterpart missing", failed debug assertions) and
    those of [Drop] code that the cache runs in the middle of a call, after which
    the recorded dependencies may be in a mess; and what comes after such a
    history once the cache has been cleared. *)
From Verif Require Export Spec Interrupt.

(** Dropping the artifact of [w] panics. *)
Definition explosive (da : addr → bool) (s : st) (w : obj) : Prop :=
  is_Some (cached s w) ∧ ∃ d a, at_addr s w d a ∧ da a = true.

(** A [purge] of a builder whose artifact panics while being dropped. *)
Definition purge_of_bomb (da : addr → bool) (x : op) (s : st) : Prop :=
  match x with OPurge o => explosive da s o | _ => False end.

(** Calls and their answers (newest first); after every answer the user goes
    on, whatever the panic was.  In each call any artifacts ([da]) and dynamic
    states ([dd]) may panic when dropped.  The one exception is [purge_of_bomb]
    (see C43). *)
Inductive caught (E : env) : list (op * answer) → st → Prop :=
| caught_nil : caught E [] init_st
| caught_done l s da dd n x r s' :
    caught E l s → step_i da dd E n x s = Done r s' → caught E ((x, Returned r) :: l) s'
| caught_panic l s da dd n x k s' :
    caught E l s → step_i da dd E n x s = Panic k s' → ¬ purge_of_bomb da x s →
    caught E ((x, Panicked k) :: l) (unwound s')
| caught_clear l s x c :
    caught E l s → clear_cut x (ch s) c → caught E ((x, Panicked PkUser) :: l) (set_ch c s).

(** The calls that invalidate artifacts by following recorded dependencies. *)
Definition invalidating (x : op) : Prop :=
  match x with
  | OGetMut _ _ | OLookupMut _ _ | ODynStateMut _ _ | OInvalidate _ | OPurge _ | OGc => True
  | _ => False
  end.

(** Any history whatsoever, with any interruptions, [purge_of_bomb] included. *)
Inductive wild (E : env) : st → Prop :=
| wild_nil : wild E init_st
| wild_done s da dd n x r s' : wild E s → step_i da dd E n x s = Done r s' → wild E s'
| wild_panic s da dd n x k s' : wild E s → step_i da dd E n x s = Panic k s' → wild E (unwound s')
| wild_clear s x c : wild E s → clear_cut x (ch s) c → wild E (set_ch c s).

(** After such a history [clear_artifacts], or [clear_all] (then it may have
    been any), and then some ordinary history. *)
Definition recovered (E : env) (s : st) : Prop :=
  ∃ s0 n x r s1 l,
    ((x = OClearArtifacts ∧ ∃ l0, caught E l0 s0) ∨ (x = OClearAll ∧ wild E s0)) ∧
    step E n x s0 = Done r s1 ∧ runs E any_op s1 l s.

(** From [s] to [s'] some artifacts of builders in [F] got lost and everything
    of the builders in [G]; nothing else changed, but that recorded
    dependencies may be lost.  No builder has run. *)
Record partly (s : st) (F G : obj → Prop) (s' : st) : Prop := {
  pt_cached : ∀ w, cached s' w = cached s w ∨ (F w ∧ cached s' w = None);
  pt_gone : ∀ w, G w → cached s' w = None ∧ state_of s' w = None;
  pt_state : ∀ w, ¬ G w → state_of s' w = state_of s w;
  pt_knows : ∀ w, knows s' w ↔ knows s w ∧ ¬ G w;
  pt_depends : ∀ u w, depends s' u w → depends s u w;
  pt_objs : objs s' = objs s;
  pt_live : ∀ w, live s' w ↔ live s w;
  pt_trace : trace s' = trace s;
}.

(** Histories as in Spec.v, but in which garbage collection may be interrupted
    by [Drop] code at any point. *)
Inductive sturdy (E : env) : st → Prop :=
| sturdy_nil : sturdy E init_st
| sturdy_done s n x r s' : sturdy E s → step E n x s = Done r s' → sturdy E s'
| sturdy_panic s n x k s' : sturdy E s → step E n x s = Panic k s' → resumable k = true → sturdy E (unwound s')
| sturdy_gc s da dd n s' : sturdy E s → step_i da dd E n OGc s = Panic PkUser s' → sturdy E (unwound s').

(** From [s] to [s'] the artifacts and recorded dependencies of the builders in
    [F] are gone, and possibly their states and known-status; everything else
    is as before.  No builder has run. *)
Record collects_partly (s : st) (F : obj → Prop) (s' : st) : Prop := {
  cp_gone : ∀ w, F w → cached s' w = None;
  cp_kept : ∀ w, ¬ F w → cached s' w = cached s w ∧ state_of s' w = state_of s w ∧ (knows s' w ↔ knows s w);
  cp_state : ∀ w, state_of s' w = state_of s w ∨ state_of s' w = None;
  cp_knows : ∀ w, knows s' w → knows s w;
  cp_depends : ∀ u w, depends s' u w ↔ depends s u w ∧ ¬ F u ∧ ¬ F w;
  cp_objs : objs s' = objs s;
  cp_live : ∀ w, live s' w ↔ live s w;
  cp_trace : trace s' = trace s;
  cp_reent : reent s' = reent s;
}.
