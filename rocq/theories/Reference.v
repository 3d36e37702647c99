(** A reference cache: what the documentation of daab says, as a big-step
    semantics.  Everything is kept per builder object, there is one dependency
    relation, and there are no ids, hash maps, leaf sets, work lists, downcasts,
    debug assertions or iteration orders.  Nothing of the model of the code
    (Cache.v, Build.v, [step]) is used here; only values, builder programs,
    operations and answers are shared. *)
From Verif Require Export Spec.
From stdpp Require Import relations.

(** Its state.  [r_stray]: addresses of builders which were purged, or
    invalidated while unknown; garbage collection stumbles over them.
    [r_log] (newest first) is what happened. *)
Record ref := Ref {
  r_art   : gmap obj bin;
  r_state : gmap obj val;
  r_known : gset obj;
  r_deps  : gset (obj * obj);          (* (u, w): u used w *)
  r_stray : gset addr;
  r_who   : gmap obj (bdef * addr);    (* all builders ever made *)
  r_live  : gset obj;
  r_nobj  : N;
  r_nbin  : N;
  r_tick  : nat;
  r_log   : list event;
}.

Definition new_ref : ref := Ref ∅ ∅ ∅ ∅ ∅ ∅ ∅ 0 0 0 [].

Definition r_def (A : ref) (o : obj) : option bdef := fst <$> r_who A !! o.
Definition r_addr (A : ref) (o : obj) : option addr := snd <$> r_who A !! o.
Definition r_addrs (A : ref) (o : obj) : gset addr := match r_addr A o with Some a => {[a]} | None => ∅ end.

(** ** Elementary updates *)

(** The cache gets to know [o]. *)
Definition r_meet (o : obj) (A : ref) : ref :=
  Ref (r_art A) (r_state A) ({[o]} ∪ r_known A) (r_deps A) (r_stray A ∖ r_addrs A o)
      (r_who A) (r_live A) (r_nobj A) (r_nbin A) (r_tick A) (r_log A).
Definition r_use (u w : obj) (A : ref) : ref :=
  Ref (r_art A) (r_state A) (r_known A) ({[(u, w)]} ∪ r_deps A) (r_stray A)
      (r_who A) (r_live A) (r_nobj A) (r_nbin A) (r_tick A) (r_log A).
Definition r_put (o : obj) (v : val) (A : ref) : ref :=
  Ref (r_art A) (<[o := v]> (r_state A)) (r_known A) (r_deps A) (r_stray A)
      (r_who A) (r_live A) (r_nobj A) (r_nbin A) (r_tick A) (r_log A).
Definition r_store (o : obj) (b : bin) (A : ref) : ref :=
  Ref (<[o := b]> (r_art A)) (r_state A) (r_known A) (r_deps A) (r_stray A)
      (r_who A) (r_live A) (r_nobj A) (r_nbin A) (r_tick A) (r_log A).
(** Writing into the artifact of [o], if there is one. *)
Definition r_write (o : obj) (f : val → val) (A : ref) : ref :=
  Ref (alter (λ b, Bin (bin_ptr b) (f (bin_val b))) o (r_art A)) (r_state A) (r_known A) (r_deps A) (r_stray A)
      (r_who A) (r_live A) (r_nobj A) (r_nbin A) (r_tick A) (r_log A).
(** The artifacts of [F] and all uses from or of [F] are forgotten. *)
Definition r_forget (F : gset obj) (A : ref) : ref :=
  Ref (filter (λ x, x.1 ∉ F) (r_art A)) (r_state A) (r_known A) (filter (λ x, x.1 ∉ F ∧ x.2 ∉ F) (r_deps A)) (r_stray A)
      (r_who A) (r_live A) (r_nobj A) (r_nbin A) (r_tick A) (r_log A).
(** The builders [F] are not known any more, and have no dynamic state. *)
Definition r_unknow (F : gset obj) (A : ref) : ref :=
  Ref (r_art A) (filter (λ x, x.1 ∉ F) (r_state A)) (r_known A ∖ F) (r_deps A) (r_stray A)
      (r_who A) (r_live A) (r_nobj A) (r_nbin A) (r_tick A) (r_log A).
(** The address of [o] is left behind, if the cache does not know [o]. *)
Definition r_spoil (o : obj) (A : ref) : ref :=
  Ref (r_art A) (r_state A) (r_known A) (r_deps A) (if decide (o ∈ r_known A) then r_stray A else r_addrs A o ∪ r_stray A)
      (r_who A) (r_live A) (r_nobj A) (r_nbin A) (r_tick A) (r_log A).
Definition r_note (e : event) (A : ref) : ref :=
  Ref (r_art A) (r_state A) (r_known A) (r_deps A) (r_stray A)
      (r_who A) (r_live A) (r_nobj A) (r_nbin A) (r_tick A) (e :: r_log A).
Definition r_tock (A : ref) : ref :=
  Ref (r_art A) (r_state A) (r_known A) (r_deps A) (r_stray A)
      (r_who A) (r_live A) (r_nobj A) (r_nbin A) (S (r_tick A)) (r_log A).
Definition r_newbin (A : ref) : ref :=
  Ref (r_art A) (r_state A) (r_known A) (r_deps A) (r_stray A)
      (r_who A) (r_live A) (r_nobj A) (N.succ (r_nbin A)) (r_tick A) (r_log A).
Definition r_alloc (d : bdef) (a : addr) (A : ref) : ref :=
  Ref (r_art A) (r_state A) (r_known A) (r_deps A) (r_stray A)
      (<[r_nobj A := (d, a)]> (r_who A)) ({[r_nobj A]} ∪ r_live A) (N.succ (r_nobj A)) (r_nbin A) (S (r_tick A)) (r_log A).
Definition r_drop (o : obj) (A : ref) : ref :=
  Ref (r_art A) (r_state A) (r_known A) (r_deps A) (r_stray A)
      (r_who A) (r_live A ∖ {[o]}) (r_nobj A) (r_nbin A) (r_tick A) (r_log A).

(** An address no live or known builder has. *)
Definition r_free (A : ref) (a : addr) : Prop := ∀ o, o ∈ r_live A ∨ o ∈ r_known A → r_addr A o ≠ Some a.

(** [F] is [o] and everything that directly or indirectly used it. *)
Definition r_affected (A : ref) (o : obj) (F : gset obj) : Prop :=
  ∀ w, w ∈ F ↔ rtc (λ x y, (y, x) ∈ r_deps A) o w.
(** [F] are the known builders nobody holds and nobody uses. *)
Definition r_garbage (A : ref) (F : gset obj) : Prop :=
  ∀ w, w ∈ F ↔ w ∈ r_known A ∧ w ∉ r_live A ∧ ∀ u, (u, w) ∉ r_deps A.

(** ** Making artifacts *)

Section Reference.
(** The outside world (including the allocator), by clock; the kind of cans. *)
Context (ask : nat → N) (kd : kind).

Definition r_legal (h : how) : Prop := kd = Boxed → h ≠ HBin.

(** In the following, [None] is: it panicked.  [B]: the builders being built,
    which are borrowed and cannot be dropped. *)

(** [get], [get_ref], [get_cloned], and the [resolve*] *)
Inductive rget : list obj → how → obj → ref → option rval → ref → Prop :=
| rget_hit B h o A b :
    o ∈ r_live A → r_legal h → r_art A !! o = Some b →
    rget B h o A (Some (conv h b)) A
| rget_built B h o A b A' :
    o ∈ r_live A → r_legal h → r_art A !! o = None → rbuild B o A (Some (Ok b)) A' →
    rget B h o A (Some (conv h b)) A'
| rget_failed B h o A e A' :
    o ∈ r_live A → r_legal h → r_art A !! o = None → rbuild B o A (Some (Err e)) A' →
    rget B h o A (Some (RvErr e)) A'
| rget_panicked B h o A A' :
    o ∈ r_live A → r_legal h → r_art A !! o = None → rbuild B o A None A' →
    rget B h o A None A'
(** building the artifact of [o] *)
with rbuild : list obj → obj → ref → option result → ref → Prop :=
| rbuild_noinit B o A d :
    r_def A o = Some d → r_state A !! o = None → bd_init d = None →
    rbuild B o A None (r_meet o A)
| rbuild_ok B o A d v b A' :
    r_def A o = Some d → (r_state A !! o = Some v ∨ r_state A !! o = None ∧ bd_init d = Some v) →
    rrun (o :: B) o (bd_body d) (r_note (ECall o) (r_put o v (r_meet o A))) (Some (Ok b)) A' →
    rbuild B o A (Some (Ok b)) (r_note (EBuilt o b) (r_store o b A'))
| rbuild_err B o A d v e A' :
    r_def A o = Some d → (r_state A !! o = Some v ∨ r_state A !! o = None ∧ bd_init d = Some v) →
    rrun (o :: B) o (bd_body d) (r_note (ECall o) (r_put o v (r_meet o A))) (Some (Err e)) A' →
    rbuild B o A (Some (Err e)) (r_note (EFailed o e) A')
| rbuild_panic B o A d v A' :
    r_def A o = Some d → (r_state A !! o = Some v ∨ r_state A !! o = None ∧ bd_init d = Some v) →
    rrun (o :: B) o (bd_body d) (r_note (ECall o) (r_put o v (r_meet o A))) None A' →
    rbuild B o A None A'
(** running the code of [u] *)
with rrun : list obj → obj → prog → ref → option result → ref → Prop :=
| rrun_ret B u r A : rrun B u (PRet r) A (Some r) A
| rrun_panic B u A : rrun B u PPanic A None A
| rrun_resolve B u h w k A r A1 x A2 :
    rget B h w (r_note (EResolve u w) (r_use u w (r_meet w A))) (Some r) A1 →
    rrun B u (k r) (r_note (EGot u w r) A1) x A2 →
    rrun B u (PResolve h w k) A x A2
| rrun_resolve_panic B u h w k A A1 :
    rget B h w (r_note (EResolve u w) (r_use u w (r_meet w A))) None A1 →
    rrun B u (PResolve h w k) A None A1
| rrun_state B u k A v x A' :
    r_state A !! u = Some v → rrun B u (k v) A x A' → rrun B u (PState k) A x A'
| rrun_set B u v p A x A' :
    rrun B u p (r_put u v A) x A' → rrun B u (PSetState v p) A x A'
| rrun_ask B u k A x A' :
    rrun B u (k (ask (r_tick A))) (r_tock A) x A' → rrun B u (PAsk k) A x A'
| rrun_newbin B u v k A x A' :
    rrun B u (k (Bin (r_nbin A) v)) (r_newbin A) x A' → rrun B u (PNewBin v k) A x A'
| rrun_new B u d k A x A' :
    r_free A (ask (r_tick A)) → rrun B u (k (r_nobj A)) (r_alloc d (ask (r_tick A)) A) x A' →
    rrun B u (PNew d k) A x A'
| rrun_drop B u w p A x A' :
    w ∈ r_live A → w ∉ B → rrun B u p (r_drop w A) x A' → rrun B u (PDrop w p) A x A'.

(** ** The calls *)

(** [get_mut] and [lookup_mut] first throw away the artifact of a builder that
    used itself. *)
Definition r_prepare (o : obj) (A : ref) : ref :=
  if decide ((o, o) ∈ r_deps A) then r_forget {[o]} A else A.

Inductive rcall : op → ref → answer → ref → Prop :=
| rc_alloc d A : r_free A (ask (r_tick A)) →
    rcall (OAlloc d) A (Returned (OutObj (r_nobj A))) (r_alloc d (ask (r_tick A)) A)
| rc_drop o A : o ∈ r_live A →
    rcall (ODrop o) A (Returned OutUnit) (r_drop o A)
| rc_get h o A r A' : rget [] h o A (Some r) A' →
    rcall (OGet h o) A (Returned (OutRes r)) A'
| rc_get_panic h o A A' : rget [] h o A None A' →
    rcall (OGet h o) A (Panicked PkUser) A'
| rc_lookup h o A : o ∈ r_live A → r_legal h →
    rcall (OLookup h o) A (Returned (OutOpt (conv h <$> r_art A !! o))) A
| rc_mut_used x o u A :
    mut_of x o → kd = Boxed → o ∈ r_live A → u ≠ o → (u, o) ∈ r_deps A →
    rcall x A (Panicked PkCounterpart) A
| rc_lookup_mut o f A A1 :
    kd = Boxed → o ∈ r_live A → (∀ u, (u, o) ∈ r_deps A → u = o) → A1 = r_prepare o A →
    rcall (OLookupMut o f) A (Returned (OutOpt ((λ b, RvVal (bin_val b)) <$> r_art A1 !! o)))
      (r_tock (r_spoil o (r_write o f A1)))
| rc_get_mut_hit o f A A1 b :
    kd = Boxed → o ∈ r_live A → (∀ u, (u, o) ∈ r_deps A → u = o) → A1 = r_prepare o A → r_art A1 !! o = Some b →
    rcall (OGetMut o f) A (Returned (OutRes (RvVal (bin_val b)))) (r_tock (r_tock (r_write o f A1)))
| rc_get_mut o f A A1 b A' :
    kd = Boxed → o ∈ r_live A → (∀ u, (u, o) ∈ r_deps A → u = o) → A1 = r_prepare o A → r_art A1 !! o = None →
    rbuild [] o (r_tock A1) (Some (Ok b)) A' →
    rcall (OGetMut o f) A (Returned (OutRes (RvVal (bin_val b)))) (r_write o f A')
| rc_get_mut_err o f A A1 e A' :
    kd = Boxed → o ∈ r_live A → (∀ u, (u, o) ∈ r_deps A → u = o) → A1 = r_prepare o A → r_art A1 !! o = None →
    rbuild [] o (r_tock A1) (Some (Err e)) A' →
    rcall (OGetMut o f) A (Returned (OutRes (RvErr e))) A'
| rc_get_mut_panic o f A A1 A' :
    kd = Boxed → o ∈ r_live A → (∀ u, (u, o) ∈ r_deps A → u = o) → A1 = r_prepare o A → r_art A1 !! o = None →
    rbuild [] o (r_tock A1) None A' →
    rcall (OGetMut o f) A (Panicked PkUser) A'
| rc_get_dyn_state o A : o ∈ r_live A →
    rcall (OGetDynState o) A (Returned (OutOptVal (r_state A !! o))) A
| rc_dyn_state o A v : o ∈ r_live A → r_state A !! o = Some v →
    rcall (ODynState o) A (Returned (OutVal v)) A
| rc_dyn_state_init o A d v : o ∈ r_live A → r_state A !! o = None → r_def A o = Some d → bd_init d = Some v →
    rcall (ODynState o) A (Returned (OutVal v)) (r_put o v (r_meet o A))
| rc_dyn_state_panic o A d : o ∈ r_live A → r_state A !! o = None → r_def A o = Some d → bd_init d = None →
    rcall (ODynState o) A (Panicked PkUser) (r_meet o A)
| rc_dyn_state_mut o f A F A1 d v :
    o ∈ r_live A → r_affected A o F → A1 = r_note (EInvalidate o) (r_tock (r_forget F A)) → r_def A o = Some d →
    (r_state A !! o = Some v ∨ r_state A !! o = None ∧ bd_init d = Some v) →
    rcall (ODynStateMut o f) A (Returned (OutVal v)) (r_put o (f v) (r_meet o A1))
| rc_dyn_state_mut_panic o f A F A1 d :
    o ∈ r_live A → r_affected A o F → A1 = r_note (EInvalidate o) (r_tock (r_forget F A)) → r_def A o = Some d →
    r_state A !! o = None → bd_init d = None →
    rcall (ODynStateMut o f) A (Panicked PkUser) (r_meet o A1)
| rc_invalidate o A F : o ∈ r_live A → r_affected A o F →
    rcall (OInvalidate o) A (Returned OutUnit) (r_note (EInvalidate o) (r_tock (r_spoil o (r_forget F A))))
| rc_purge o A F : o ∈ r_live A → r_affected A o F →
    rcall (OPurge o) A (Returned OutUnit) (r_note (EInvalidate o) (r_tock (r_spoil o (r_unknow {[o]} (r_forget F A)))))
| rc_clear_artifacts A :
    rcall OClearArtifacts A (Returned OutUnit)
      (Ref ∅ (r_state A) (r_known A) ∅ (r_stray A) (r_who A) (r_live A) (r_nobj A) (r_nbin A) (r_tick A) (r_log A))
| rc_clear_all A :
    rcall OClearAll A (Returned OutUnit)
      (Ref ∅ ∅ ∅ ∅ ∅ (r_who A) (r_live A) (r_nobj A) (r_nbin A) (r_tick A) (EClear :: r_log A))
| rc_gc A F : r_stray A = ∅ → r_garbage A F →
    rcall OGc A (Returned OutUnit) (r_tock (r_unknow F (r_forget F A)))
| rc_gc_panic A : r_stray A ≠ ∅ →
    rcall OGc A (Panicked PkGcIndex) (r_tock A)
| rc_is_known o A : o ∈ r_live A →
    rcall (OIsKnown o) A (Returned (OutBool (bool_decide (o ∈ r_known A)))) A
| rc_num_known A :
    rcall ONumKnown A (Returned (OutNum (size (r_known A)))) A.

(** Histories of the reference cache, as [runs]; there is no going on after the
    panic of [get_mut] or [lookup_mut]. *)
Inductive rruns : ref → list (op * answer) → ref → Prop :=
| rruns_nil A : rruns A [] A
| rruns_call A0 l A x y A' :
    rruns A0 l A → rcall x A y A' → y ≠ Panicked PkCounterpart → rruns A0 ((x, y) :: l) A'.

End Reference.

(** The state [s] of the cache looks like the state [A] of the reference cache. *)
Record shows (s : st) (A : ref) : Prop := {
  sh_art : ∀ o, r_art A !! o = cached s o;
  sh_state : ∀ o, r_state A !! o = state_of s o;
  sh_known : ∀ o, o ∈ r_known A ↔ knows s o;
  sh_deps : ∀ u w, (u, w) ∈ r_deps A ↔ depends s u w;
  sh_stray : ∀ a, a ∈ r_stray A ↔ a ∈ leafs (ch s) ∧ known (ch s) !! a = None;
  sh_who : r_who A = objs s;
  sh_live : r_live A = alive s;
  sh_nobj : r_nobj A = nobj s;
  sh_nbin : r_nbin A = nbin s;
  sh_tick : r_tick A = tick s;
  sh_log : r_log A = trace s;
}.
