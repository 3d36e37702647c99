(** What a user can observe about a builder, and the vocabulary in which the
    properties are stated.  Only the state of the model is used here, none of
    the functions of the model (but for [drops], which asks whether a garbage
    collection succeeds).  [lookup_observes], [get_dyn_state_observes] and
    [is_known_observes] (Props1.v) show that these are exactly what the
    API calls [lookup*], [get_dyn_state] and [is_builder_known] report. *)
From Verif Require Export System.
From stdpp Require Import relations.

(** The builder [o] lives (or lived) at address [a] with definition [d]. *)
Definition at_addr (s : st) (o : obj) (d : bdef) (a : addr) : Prop := objs s !! o = Some (d, a).

(** The user still holds a Blueprint of [o]. *)
Definition live (s : st) (o : obj) : Prop := o ∈ alive s.

(** The cache keeps a weak reference to [o]. *)
Definition knows (s : st) (o : obj) : Prop := ∃ d a, at_addr s o d a ∧ known (ch s) !! a = Some o.

(** The artifact the cache keeps for [o]. *)
Definition cached (s : st) (o : obj) : option bin :=
  match objs s !! o with
  | Some (_, a) =>
    if decide (known (ch s) !! a = Some o)
    then match artifacts (ch s) !! a with Some e => Some (ar_bin e) | None => None end
    else None
  | None => None
  end.

(** The dynamic state the cache keeps for [o]. *)
Definition state_of (s : st) (o : obj) : option val :=
  match objs s !! o with
  | Some (_, a) =>
    if decide (known (ch s) !! a = Some o)
    then match dyn_states (ch s) !! a with Some v => Some (ds_val v) | None => None end
    else None
  | None => None
  end.

(** The cache recorded that [u] depends on [w]. *)
Definition depends (s : st) (u w : obj) : Prop :=
  ∃ du ua dw wa X, at_addr s u du ua ∧ known (ch s) !! ua = Some u ∧
                   at_addr s w dw wa ∧ known (ch s) !! wa = Some w ∧
                   dependents (ch s) !! wa = Some X ∧ ua ∈ X.

(** [w] is [o] or transitively depends on [o]. *)
Definition affected (s : st) (o w : obj) : Prop := rtc (λ x y, depends s y x) o w.

(** Number of times the [build] of [o] was entered / succeeded so far. *)
Definition is_call (o : obj) (e : event) : bool := match e with ECall u => (u =? o)%N | _ => false end.
Definition is_built (o : obj) (e : event) : bool := match e with EBuilt u _ => (u =? o)%N | _ => false end.
Definition count (f : event → bool) (l : list event) : nat := length (filter (λ e, f e = true) l).
Definition calls (s : st) (o : obj) : nat := count (is_call o) (trace s).
Definition builds (s : st) (o : obj) : nat := count (is_built o) (trace s).

(** [l]: what happened since the [build] of [u] was entered for the last time
    (newest first). *)
Definition since_call (s : st) (u : obj) (l : list event) : Prop :=
  ∃ l2, trace s = l ++ ECall u :: l2 ∧ count (is_call u) l = 0.

(** From [s] to [s'] exactly the artifacts of the builders in [F] and the
    dynamic states and known-status of the builders in [G] are forgotten, and
    the recorded dependencies from or to builders in [F]; everything else is
    as before, no builder has run. *)
Record forgets (s : st) (F G : obj → Prop) (s' : st) : Prop := {
  fg_gone : ∀ w, F w → cached s' w = None;
  fg_kept : ∀ w, ¬ F w → cached s' w = cached s w;
  fg_state_gone : ∀ w, G w → state_of s' w = None;
  fg_state_kept : ∀ w, ¬ G w → state_of s' w = state_of s w;
  fg_knows : ∀ w, knows s' w ↔ knows s w ∧ ¬ G w;
  fg_depends : ∀ u w, depends s' u w ↔ depends s u w ∧ ¬ F u ∧ ¬ F w;
  fg_objs : objs s' = objs s;
  fg_live : ∀ w, live s' w ↔ live s w;
  fg_calls : ∀ w, calls s' w = calls s w;
}.

(** Nothing a user can observe differs: artifacts, states, known builders,
    recorded dependencies, builders, calls. *)
Definition same (s s' : st) : Prop := forgets s (λ _, False) (λ _, False) s'.

(** What [init_dyn_state] of [o] gives ([None]: it panics). *)
Definition initial (s : st) (o : obj) : option val :=
  match objs s !! o with Some (d, _) => bd_init d | None => None end.

(** From [s] to [s'] the builder [o] becomes known and its dynamic state
    becomes [v]; everything else is as before, no builder has run. *)
Record sets_state (s : st) (o : obj) (v : option val) (s' : st) : Prop := {
  ss_state : state_of s' o = v;
  ss_others : ∀ w, w ≠ o → state_of s' w = state_of s w;
  ss_knows : ∀ w, knows s' w ↔ knows s w ∨ w = o;
  ss_cached : ∀ w, cached s' w = cached s w;
  ss_depends : ∀ u w, depends s' u w ↔ depends s u w;
  ss_objs : objs s' = objs s;
  ss_live : ∀ w, live s' w ↔ live s w;
  ss_calls : ∀ w, calls s' w = calls s w;
}.

(** From [s] to [s'] the artifact of [o] is replaced by its image under [f] in
    the same bin (if there is one); everything else is as before, no builder
    has run. *)
Record writes (s : st) (o : obj) (f : val → val) (s' : st) : Prop := {
  wr_cached : cached s' o = (λ b, Bin (bin_ptr b) (f (bin_val b))) <$> cached s o;
  wr_others : ∀ w, w ≠ o → cached s' w = cached s w;
  wr_state : ∀ w, state_of s' w = state_of s w;
  wr_knows : ∀ w, knows s' w ↔ knows s w;
  wr_depends : ∀ u w, depends s' u w ↔ depends s u w;
  wr_objs : objs s' = objs s;
  wr_live : ∀ w, live s' w ↔ live s w;
  wr_calls : ∀ w, calls s' w = calls s w;
}.

(** The operation [x], done in state [s], is not one that is meant to remove or
    change the artifact of [o]. *)
Definition keeps (o : obj) (s : st) (x : op) : Prop :=
  match x with
  | OInvalidate w | OPurge w | ODynStateMut w _ => ¬ affected s w o
  | OGetMut w _ | OLookupMut w _ => w ≠ o
  | OClearArtifacts | OClearAll => False
  | OGc => live s o ∨ ∃ u, depends s u o
  | _ => True
  end.

(** Operations after which garbage collection cannot panic: everything but
    purging, and invalidating or [lookup_mut]-ing a builder the cache does not
    know. *)
Definition gc_friendly (s : st) (x : op) : Prop :=
  match x with
  | OPurge _ => False
  | OInvalidate o => knows s o
  | OLookupMut o _ => knows s o
  | _ => True
  end.

(** Builders that never panic by themselves: neither [build] nor
    [init_dyn_state] panics, on any path, and the same holds for the builders
    they create. *)
Fixpoint calm_prog (p : prog) : Prop :=
  match p with
  | PRet _ => True
  | PPanic => False
  | PResolve _ _ k => ∀ r, calm_prog (k r)
  | PState k => ∀ v, calm_prog (k v)
  | PSetState _ p => calm_prog p
  | PAsk k => ∀ n, calm_prog (k n)
  | PNewBin _ k => ∀ b, calm_prog (k b)
  | PNew d k => calm_bdef d ∧ ∀ o, calm_prog (k o)
  | PDrop _ p => calm_prog p
  end
with calm_bdef (d : bdef) : Prop :=
  match d with BDef _ _ init body => init ≠ None ∧ calm_prog body end.

(** Only such builders are allocated. *)
Definition calm_op (s : st) (x : op) : Prop :=
  match x with OAlloc d => calm_bdef d | _ => True end.

(** The operation [x], done in state [s], is not one that is meant to change
    the dynamic state of [o] (other than by running its [build]). *)
Definition state_keeps (o : obj) (s : st) (x : op) : Prop :=
  match x with
  | OPurge w | ODynStateMut w _ => w ≠ o
  | OClearAll => False
  | OGc => live s o ∨ ∃ u, depends s u o
  | _ => True
  end.

(** The call returned, or panicked in a way one can go on from. *)
Definition goes (x : outcome out) (s' : st) : Prop :=
  (∃ r, x = Done r s') ∨ (∃ k, x = Panic k s' ∧ resumable k = true).


(** The builders a call [x] in state [s] is meant to forget (their artifacts
    and recorded dependencies). *)
Definition drops (E : env) (x : op) (s : st) (w : obj) : Prop :=
  match x with
  | OInvalidate o | OPurge o | ODynStateMut o _ => affected s o w
  | OGetMut o _ | OLookupMut o _ => w = o ∧ depends s o o
  | OClearArtifacts | OClearAll => True
  | OGc => (∃ n r s', step E n OGc s = Done r s') ∧ knows s w ∧ ¬ live s w ∧ ∀ u, ¬ depends s u w
  | _ => False
  end.

(** Replaying the events the doctor was told (newest first): who depends on
    whom, and who has which artifact. *)
Fixpoint rdep (l : list event) (u w : obj) : Prop :=
  match l with
  | [] => False
  | EResolve u' w' :: l => (u = u' ∧ w = w') ∨ rdep l u w
  | EInvalidate o :: l => rdep l u w ∧ ¬ rtc (λ x y, rdep l y x) o u ∧ ¬ rtc (λ x y, rdep l y x) o w
  | EClear :: l => False
  | _ :: l => rdep l u w
  end.
Fixpoint rart (l : list event) (u : obj) (b : bin) : Prop :=
  match l with
  | [] => False
  | EBuilt u' b' :: l => (u = u' ∧ b = b') ∨ (u ≠ u' ∧ rart l u b)
  | EInvalidate o :: l => rart l u b ∧ ¬ rtc (λ x y, rdep l y x) o u
  | EClear :: l => False
  | _ :: l => rart l u b
  end.
(** Operations the doctor is told about. *)
Definition doctored (s : st) (x : op) : Prop :=
  match x with OClearArtifacts | OGc | OGetMut _ _ | OLookupMut _ _ => False | _ => True end.

(** [R] ranks builders; a program of rank [r] resolves only builders of
    smaller rank, also those that it creates itself. *)
Fixpoint ranked_prog (R : gmap obj nat) (r : nat) (p : prog) : Prop :=
  match p with
  | PRet _ | PPanic => True
  | PResolve _ w k => (∃ rw, R !! w = Some rw ∧ rw < r) ∧ ∀ v, ranked_prog R r (k v)
  | PState k => ∀ v, ranked_prog R r (k v)
  | PSetState _ p => ranked_prog R r p
  | PAsk k => ∀ n, ranked_prog R r (k n)
  | PNewBin _ k => ∀ b, ranked_prog R r (k b)
  | PNew d k => ∃ rd, ranked_bdef R rd d ∧ ∀ o, R !! o = None → ranked_prog (<[o := rd]> R) r (k o)
  | PDrop _ p => ranked_prog R r p
  end
with ranked_bdef (R : gmap obj nat) (r : nat) (d : bdef) : Prop :=
  match d with BDef _ _ _ body => ranked_prog R r body end.

(** [R] ranks exactly the builders that exist so far, and all of them obey it. *)
Definition ranks (R : gmap obj nat) (s : st) : Prop :=
  (∀ o, is_Some (R !! o) ↔ is_Some (objs s !! o)) ∧
  ∀ o d a, at_addr s o d a → ∃ r, R !! o = Some r ∧ ranked_bdef R r d.

(** Only builders that can be ranked, together with those that exist already,
    are allocated. *)
Definition ranked_op (s : st) (x : op) : Prop :=
  match x with OAlloc d => ∃ R r, ranks R s ∧ ranked_bdef R r d | _ => True end.

(** Builders that resolve only builders from a given set, and create none:
    those that hold just the blueprints they were constructed with. *)
Fixpoint resolves_only (P : obj → Prop) (p : prog) : Prop :=
  match p with
  | PRet _ | PPanic => True
  | PResolve _ w k => P w ∧ ∀ v, resolves_only P (k v)
  | PState k => ∀ v, resolves_only P (k v)
  | PSetState _ p => resolves_only P p
  | PAsk k => ∀ n, resolves_only P (k n)
  | PNewBin _ k => ∀ b, resolves_only P (k b)
  | PNew _ _ => False
  | PDrop _ p => resolves_only P p
  end.
(** Only builders are allocated that resolve builders existing already. *)
Definition grounded_op (s : st) (x : op) : Prop :=
  match x with OAlloc d => resolves_only (λ w, is_Some (objs s !! w)) (bd_body d) | _ => True end.

(** The events the doctor is told (the other ones are ghosts). *)
Definition told (e : event) : bool :=
  match e with EResolve _ _ | EBuilt _ _ | EInvalidate _ | EClear => true | _ => false end.
Definition doctor_log (s : st) : list event := filter (λ e, told e = true) (trace s).

(** The builders a call [x], during which [l] happened, is meant to make known,
    and those it is meant to forget. *)
Definition introduces (x : op) (l : list event) (w : obj) : Prop :=
  match x with
  | OGet _ o | OGetMut o _ => w = o ∨ ∃ u, EResolve u w ∈ l
  | ODynState o | ODynStateMut o _ => w = o
  | _ => False
  end.
Definition unlearns (E : env) (x : op) (s : st) (w : obj) : Prop :=
  match x with
  | OPurge o => w = o
  | OClearAll => True
  | OGc => (∃ n r s', step E n OGc s = Done r s') ∧ ¬ live s w ∧ ∀ u, ¬ depends s u w
  | _ => False
  end.

(** The user throws the cache away and continues with a new one. *)
Definition with_new_cache (s : st) : st := set_ch (ch init_st) s.

(** The same but for the ghosts: what happened so far, and whether a builder
    was re-entered. *)
Record same_but_log (s s' : st) : Prop := {
  sl_ch : ch s' = ch s;
  sl_objs : objs s' = objs s;
  sl_alive : alive s' = alive s;
  sl_nobj : nobj s' = nobj s;
  sl_nbin : nbin s' = nbin s;
  sl_tick : tick s' = tick s;
  sl_stack : stack s' = stack s;
}.

(** The cache keeps a weak reference to some builder at the address [a]. *)
Definition occupied (s : st) (a : addr) : Prop := ∃ o d, at_addr s o d a ∧ knows s o.

(** Calls that leave an address behind that garbage collection stumbles over:
    purging the builder at [a], invalidating it or [lookup_mut]-ing it while the
    cache does not know it. *)
Definition spoils (x : op) (s : st) (a : addr) : Prop :=
  match x with
  | OPurge o => ∃ d, at_addr s o d a
  | OInvalidate o | OLookupMut o _ => ¬ knows s o ∧ ∃ d, at_addr s o d a
  | _ => False
  end.

(** Every run of the program that returns has resolved a builder in [C]
    before, whatever it was handed, reads or hears. *)
Fixpoint must_resolve (C : obj → Prop) (p : prog) : Prop :=
  match p with
  | PRet _ => False
  | PPanic => True
  | PResolve _ w k => C w ∨ ∀ v, must_resolve C (k v)
  | PState k => ∀ v, must_resolve C (k v)
  | PSetState _ p => must_resolve C p
  | PAsk k => ∀ v, must_resolve C (k v)
  | PNewBin _ k => ∀ b, must_resolve C (k b)
  | PNew _ k => ∀ o, must_resolve C (k o)
  | PDrop _ p => must_resolve C p
  end.

(** The calls that give mutable access to the artifact of [o]. *)
Definition mut_of (x : op) (o : obj) : Prop := (∃ f, x = OGetMut o f) ∨ (∃ f, x = OLookupMut o f).
