(** Lemmas behind Props20.v: all adversities at once. *)
From Verif Require Export Storm WatchFacts ThreadFacts Demo.
From stdpp Require Import relations.

(** ** Every state that satisfies the invariant looks like some reference cache *)
Lemma shows_ex s : ∃ A, shows s A.
Proof.
  set (dm := elements (dom (objs s))).
  exists (Ref (map_imap (λ o _, cached s o) (objs s)) (map_imap (λ o _, state_of s o) (objs s))
    (list_to_set (filter (knows s) dm))
    (list_to_set (filter (λ p, depends_b s p.1 p.2 = true) (list_prod dm dm)))
    (filter (λ a, known (ch s) !! a = None) (leafs (ch s))) (objs s) (alive s) (nobj s) (nbin s) (tick s) (trace s)).
  assert (∀ o, knows s o → o ∈ dm) as Hdm.
  { intros o (d & a & Ho & _). apply elem_of_elements, elem_of_dom. by eexists. }
  split; cbn; try done.
  - intros o. rewrite map_lookup_imap. destruct (objs s !! o) as [x|] eqn:Ho; [done|]. cbn. unfold cached. by rewrite Ho.
  - intros o. rewrite map_lookup_imap. destruct (objs s !! o) as [x|] eqn:Ho; [done|]. cbn. unfold state_of. by rewrite Ho.
  - intros o. rewrite elem_of_list_to_set, elem_of_list_filter. split; [by intros [? _]|]. intros Hk. split; [done|by apply Hdm].
  - intros u w. rewrite elem_of_list_to_set, elem_of_list_filter. cbn. rewrite depends_b_spec. split; [by intros [? _]|].
    intros Hd. split; [done|]. apply elem_of_list_In, in_prod; apply elem_of_list_In, Hdm;
      destruct Hd as (du & ua & dw & wa & X & ? & ? & ? & ? & ? & ?); [by exists du, ua|by exists dw, wa].
  - intros a. rewrite elem_of_filter. tauto.
Qed.

Section StormFacts.
Context (E : env).
Notation prim := (prim E).
Notation prims := (rtc prim).

Lemma performs_turned B l s s' : Inv s → performs E B l s = Some s' → turned E B s s'.
Proof. intros I Hp. destruct (shows_ex s) as [A H]. by destruct (performs_ok E B l s s' A I H Hp). Qed.

(** ** Transitions *)
Inductive sprim : st → st → Prop :=
| sp_prim s s' : prim s s' → sprim s s'
| sp_pop s u S : stack s = u :: S → sprim s (set_stack S s)
| sp_dyn s o d a v : promise o s = Some (d, a) → is_Some (known (ch s) !! a) → dyn_states (ch s) !! a = None →
    sprim s (set_ch (set_dyn_states <[a := Dst (bd_sty d) v]> (ch s)) s).
Notation sprims := (rtc sprim).

(** The two new ones change next to nothing. *)
Record quiet (s s' : st) : Prop := {
  q_objs : objs s' = objs s;
  q_alive : alive s' = alive s;
  q_nobj : nobj s' = nobj s;
  q_reent : reent s' = reent s;
  q_trace : trace s' = trace s;
  q_art : artifacts (ch s') = artifacts (ch s);
  q_known : known (ch s') = known (ch s);
  q_dts : dependents (ch s') = dependents (ch s);
  q_dys : dependencies (ch s') = dependencies (ch s);
  q_leafs : leafs (ch s') = leafs (ch s);
  q_stack : ∃ l, stack s = l ++ stack s';
  q_dyn : ∀ a v, dyn_states (ch s) !! a = Some v → dyn_states (ch s') !! a = Some v;
}.
Lemma sprim_cases s s' : sprim s s' → prim s s' ∨ quiet s s'.
Proof.
  intros Hp. destruct Hp as [s s' Hp|s u S Hst|s o d a v Hp Hk Hd]; [by left|right..].
  - split; try done. exists [u]. done.
  - split; try done; [by exists []|]. intros a' v' Ha. cbn. rewrite lookup_insert_ne; [done|]. congruence.
Qed.

Lemma sprim_Inv s s' : sprim s s' → Inv s → Inv s'.
Proof.
  intros Hp I. destruct Hp as [s s' Hp|s u S Hst|s o d a v Hp Hk Hd].
  - by eapply prim_Inv.
  - split; try apply I. intros o Ho. apply (i_stack _ I). rewrite Hst. by right.
  - apply promise_Some in Hp as Hp'. destruct Hp' as [Hal Ho]. destruct Hk as [o' Hk].
    assert (o' = o) as -> by (exact (Inv_known_is s o d a o' I Hp Hk)).
    split; try apply I.
    + eapply CInv_dyn; [apply I|exact Hk|exact Ho].
    + intros o' Ho'. destruct (i_stack _ I o' Ho') as (? & d' & a' & ? & ? & ?).
      split; [done|]. exists d', a'. cbn. rewrite lookup_insert_is_Some'. auto.
Qed.
Lemma sprims_Inv s s' : sprims s s' → Inv s → Inv s'.
Proof. induction 1; eauto using sprim_Inv. Qed.
Lemma prims_sprims s s' : prims s s' → sprims s s'.
Proof. intros H. induction H; [done|]. eapply rtc_l; [by apply sp_prim|done]. Qed.

Lemma quiet_cached s s' o : quiet s s' → cached s' o = cached s o.
Proof. intros Q. unfold cached. by rewrite (q_objs _ _ Q), (q_known _ _ Q), (q_art _ _ Q). Qed.
Lemma quiet_knows s s' o : quiet s s' → knows s' o ↔ knows s o.
Proof. intros Q. unfold knows, at_addr. by rewrite (q_objs _ _ Q), (q_known _ _ Q). Qed.
Lemma quiet_depends s s' u w : quiet s s' → depends s' u w ↔ depends s u w.
Proof. intros Q. unfold depends, at_addr. by rewrite (q_objs _ _ Q), (q_known _ _ Q), (q_dts _ _ Q). Qed.
Lemma quiet_calls s s' o : quiet s s' → calls s' o = calls s o.
Proof. intros Q. unfold calls. by rewrite (q_trace _ _ Q). Qed.
Lemma quiet_stack s s' o : quiet s s' → o ∈ stack s' → o ∈ stack s.
Proof. intros Q Ho. destruct (q_stack _ _ Q) as [l ->]. apply elem_of_app. by right. Qed.
Lemma quiet_state s s' o v : quiet s s' → state_of s o = Some v → state_of s' o = Some v.
Proof.
  intros Q Hv. destruct (decide (knows s o)) as [Hk|Hk]; [|by rewrite state_unknown in Hv].
  destruct Hk as (d & a & Ho & Hk). rewrite (state_at s o d a Ho Hk) in Hv.
  rewrite (state_at s' o d a); [|unfold at_addr; by rewrite (q_objs _ _ Q)|by rewrite (q_known _ _ Q)].
  destruct (dyn_states (ch s) !! a) as [e|] eqn:He; [|done]. by rewrite (q_dyn _ _ Q _ _ He).
Qed.

(** Lemmas for [sprim], from those for [prim]. *)
Lemma sprims_ind_inv (P : st → Prop) s s' :
  Inv s → P s → (∀ s1 s2, Inv s1 → Inv s2 → sprims s s1 → P s1 → prim s1 s2 → P s2) →
  (∀ s1 s2, Inv s1 → Inv s2 → sprims s s1 → P s1 → quiet s1 s2 → P s2) → sprims s s' → P s'.
Proof.
  intros I H0 Hs Hq H. assert (Inv s' ∧ P s') as [_ ?]; [|done].
  refine (rtc_ind_r (λ x, Inv x ∧ P x) s _ _ s' H); [done|].
  intros s1 s2 H1 H2 [I1 HP]. assert (Inv s2) as I2 by (by eapply sprim_Inv). split; [done|].
  destruct (sprim_cases s1 s2 H2) as [Hx|Hx]; [exact (Hs s1 s2 I1 I2 H1 HP Hx)|exact (Hq s1 s2 I1 I2 H1 HP Hx)].
Qed.

Lemma sprims_objs s s' o x : Inv s → sprims s s' → objs s !! o = Some x → objs s' !! o = Some x.
Proof.
  intros I Hp Ho. refine (sprims_ind_inv (λ s, objs s !! o = Some x) s s' I Ho _ _ Hp).
  - intros s1 s2 I1 _ _ H1 H. exact (prim_objs E s1 s2 o x H (i_wf _ I1) H1).
  - intros s1 s2 I1 _ _ H1 Q. by rewrite (q_objs _ _ Q).
Qed.
Lemma sprims_edge s s' ua wa : Inv s → sprims s s' → edge s ua wa → edge s' ua wa.
Proof.
  intros I Hp He. refine (sprims_ind_inv (λ s, edge s ua wa) s s' I He _ _ Hp).
  - intros s1 s2 _ _ _ H1 H. exact (prim_edge E s1 s2 ua wa H H1).
  - intros s1 s2 _ _ _ H1 Q. unfold edge. by rewrite (q_dts _ _ Q).
Qed.
Lemma sprims_known s s' a o : Inv s → sprims s s' → known (ch s) !! a = Some o → known (ch s') !! a = Some o.
Proof.
  intros I Hp He. refine (sprims_ind_inv (λ s, known (ch s) !! a = Some o) s s' I He _ _ Hp).
  - intros s1 s2 _ _ _ H1 H. exact (prim_known E s1 s2 a o H H1).
  - intros s1 s2 _ _ _ H1 Q. by rewrite (q_known _ _ Q).
Qed.
Lemma sprims_trace s s' : Inv s → sprims s s' → ∃ l, trace s' = l ++ trace s.
Proof.
  intros I Hp. refine (sprims_ind_inv (λ x, ∃ l, trace x = l ++ trace s) s s' I _ _ _ Hp).
  - by exists [].
  - intros s1 s2 _ _ _ [l Hl] H. destruct (prim_trace E _ _ H) as [l' Hl']. exists (l' ++ l). by rewrite Hl', Hl, app_assoc.
  - intros s1 s2 _ _ _ [l Hl] Q. exists l. by rewrite (q_trace _ _ Q).
Qed.
Lemma sprims_calls s s' o : Inv s → sprims s s' → calls s o ≤ calls s' o.
Proof. intros I H. destruct (sprims_trace _ _ I H) as [l Hl]. unfold calls. rewrite Hl, count_app. lia. Qed.

Lemma sprims_cached s s' o b :
  Inv s → sprims s s' → o ∉ stack s → cached s o = Some b →
  cached s' o = Some b ∧ o ∉ stack s' ∧ calls s' o = calls s o.
Proof.
  intros I Hp Hns Hc.
  refine (sprims_ind_inv (λ x, cached x o = Some b ∧ o ∉ stack x ∧ calls x o = calls s o) s s' I _ _ _ Hp); [done|..].
  - intros s1 s2 I1 I2 _ (H1 & H2 & H3) H. destruct (prim_cached E s1 s2 o b I1 H H2 H1) as (? & ? & ?).
    split_and!; [done..|congruence].
  - intros s1 s2 I1 I2 _ (H1 & H2 & H3) Q. rewrite (quiet_cached _ _ _ Q), (quiet_calls _ _ _ Q). split_and!; [done| |done].
    intros Hin. by apply H2, (quiet_stack _ _ _ Q).
Qed.
Lemma sprims_state s s' o v :
  Inv s → sprims s s' → o ∉ stack s → state_of s o = Some v →
  calls s o < calls s' o ∨ (state_of s' o = Some v ∧ o ∉ stack s').
Proof.
  intros I Hp Hns Hc.
  refine (sprims_ind_inv (λ x, calls s o < calls x o ∨ (state_of x o = Some v ∧ o ∉ stack x)) s s' I _ _ _ Hp); [auto|..].
  - intros s1 s2 I1 I2 Hs [Hlt|[H1 H2]] H.
    + left. assert (prims s1 s2) as H' by (by apply rtc_once). apply (prims_calls E _ _ o) in H'. lia.
    + destruct (prim_state E s1 s2 o v I1 H H1 H2) as [? [?|?]]; [auto|].
      left. apply (sprims_calls _ _ o I) in Hs. lia.
  - intros s1 s2 I1 I2 Hs Hor Q. rewrite (quiet_calls _ _ _ Q). destruct Hor as [?|[H1 H2]]; [by left|right].
    split; [by eapply quiet_state|]. intros Hin. by apply H2, (quiet_stack _ _ _ Q).
Qed.
Lemma sprims_reent s s' : Inv s → sprims s s' → reent s' = false → reent s = false.
Proof.
  intros I Hp. refine (sprims_ind_inv (λ x, reent x = false → reent s = false) s s' I _ _ _ Hp); [done|..].
  - intros s1 s2 _ _ _ IH H Hr. apply IH. by eapply prim_reent.
  - intros s1 s2 _ _ _ IH Q Hr. apply IH. by rewrite <- (q_reent _ _ Q).
Qed.
Lemma quiet_nr s s' : quiet s s' → nr s → nr s'.
Proof.
  intros Q Hn Hr. rewrite (q_reent _ _ Q) in Hr. destruct (Hn Hr) as [H1 H2]. split.
  - destruct (q_stack _ _ Q) as [l Hl]. rewrite Hl in H1. by apply NoDup_app in H1 as (_ & _ & ?).
  - intros o Ho. rewrite (quiet_cached _ _ _ Q). by apply H2, (quiet_stack _ _ _ Q).
Qed.
Lemma sprims_nr s s' : Inv s → sprims s s' → nr s → nr s'.
Proof.
  intros I Hp Hn. refine (sprims_ind_inv nr s s' I Hn _ _ Hp).
  - intros s1 s2 I1 _ _ H1 H. exact (prim_nr E s1 s2 I1 H H1).
  - intros s1 s2 I1 _ _ H1 Q. by eapply quiet_nr.
Qed.
Lemma quiet_coh s s' : quiet s s' → coh s → coh s'.
Proof.
  intros Q Hc u w rv l1 l2 Hu Ht Hs. rewrite (q_trace _ _ Q) in Ht.
  destruct (Hc u w rv l1 l2) as [H1 H2]; [|done..|].
  - rewrite (quiet_cached _ _ _ Q) in Hu. destruct Hu as [?|?]; [by left|right; by eapply quiet_stack].
  - split; [by apply (quiet_depends _ _ _ _ Q)|]. by setoid_rewrite (quiet_cached _ _ _ Q).
Qed.
Lemma sprims_coh s s' : Inv s → nr s → sprims s s' → reent s' = false → coh s → coh s'.
Proof.
  intros I Hnr Hp Hre Hc.
  assert (nr s' ∧ (reent s' = false → coh s')) as [_ ?]; [|auto].
  refine (sprims_ind_inv (λ x, nr x ∧ (reent x = false → coh x)) s s' I _ _ _ Hp); [done|..].
  - intros s1 s2 I1 _ _ [H1 H2] H. split; [exact (prim_nr E s1 s2 I1 H H1)|]. intros Hr.
    assert (reent s1 = false) as Hr1 by (by eapply prim_reent).
    exact (prim_coh E s1 s2 I1 H1 H Hr (H2 Hr1)).
  - intros s1 s2 I1 _ _ [H1 H2] Q. split; [by eapply quiet_nr|]. intros Hr. rewrite (q_reent _ _ Q) in Hr.
    eapply quiet_coh; [done|auto].
Qed.
Lemma quiet_all_built s s' : quiet s s' → all_built E s → all_built E s'.
Proof. intros Q Hb o b Ho. rewrite (quiet_cached _ _ _ Q) in Ho. specialize (Hb o b Ho). unfold from_build in *. by rewrite (q_trace _ _ Q). Qed.
Lemma sprims_all_built s s' : Inv s → sprims s s' → all_built E s → all_built E s'.
Proof.
  intros I Hp Hb. refine (sprims_ind_inv (all_built E) s s' I Hb _ _ Hp).
  - intros s1 s2 I1 _ _ H1 H. exact (prim_all_built E s1 s2 I1 H H1).
  - intros s1 s2 I1 _ _ H1 Q. by eapply quiet_all_built.
Qed.
Lemma sprims_depends s s' l u w :
  Inv s → sprims s s' → trace s' = l ++ trace s → depends s' u w ↔ depends s u w ∨ EResolve u w ∈ l.
Proof.
  intros I Hp. revert l.
  refine (sprims_ind_inv (λ x, ∀ l, trace x = l ++ trace s → depends x u w ↔ depends s u w ∨ EResolve u w ∈ l) s s' I _ _ _ Hp).
  - intros l Hl. apply app_inv_tail_nil in Hl as ->. set_solver.
  - intros s1 s2 I1 _ Hs IH H l Hl. destruct (sprims_trace _ _ I Hs) as [l1 Hl1].
    destruct (prim_new E s1 s2 H) as [l2 Hl2]. rewrite (prim_depends E s1 s2 l2 u w I1 H Hl2).
    rewrite (IH l1 Hl1). assert (l = l2 ++ l1) as ->.
    { rewrite Hl2, Hl1, app_assoc in Hl. by apply app_inv_tail in Hl. }
    rewrite elem_of_app. tauto.
  - intros s1 s2 I1 _ Hs IH Q l Hl. rewrite (quiet_depends _ _ _ _ Q). apply IH. by rewrite <- (q_trace _ _ Q).
Qed.
Lemma sprims_cached_new s s' l w b :
  Inv s → sprims s s' → trace s' = l ++ trace s → cached s' w = Some b → cached s w = Some b ∨ EBuilt w b ∈ l.
Proof.
  intros I Hp. revert l.
  refine (sprims_ind_inv (λ x, ∀ l, trace x = l ++ trace s → cached x w = Some b → cached s w = Some b ∨ EBuilt w b ∈ l) s s' I _ _ _ Hp).
  - auto.
  - intros s1 s2 I1 I2 H1 IH H2 l Hl Hw. destruct (sprims_trace s s1 I H1) as [l1 Hl1].
    destruct (prim_trace E s1 s2 H2) as [l2 Hl2]. rewrite Hl1, app_assoc in Hl2. rewrite Hl2 in Hl. apply app_inv_tail in Hl as <-.
    destruct (prim_cached_new E s1 s2 w b I1 H2 Hw) as [Hw1|[Ht _]].
    + destruct (IH l1 Hl1 Hw1) as [?|?]; [by left|right]. apply elem_of_app. by right.
    + right. rewrite Ht, Hl1 in Hl2. change (?x :: l1 ++ ?y) with ((x :: l1) ++ y) in Hl2.
      apply app_inv_tail in Hl2 as <-. left.
  - intros s1 s2 I1 I2 H1 IH Q l Hl. rewrite (quiet_cached _ _ _ Q). apply IH. by rewrite <- (q_trace _ _ Q).
Qed.
Lemma sprims_uncalled s s' w :
  Inv s → sprims s s' → w ∉ stack s → calls s' w = calls s w → cached s' w = cached s w.
Proof.
  intros I Hp Hns Hc.
  assert (calls s' w = calls s w → cached s' w = cached s w ∧ w ∉ stack s') as H; [|by apply H].
  clear Hc. refine (sprims_ind_inv (λ x, calls x w = calls s w → cached x w = cached s w ∧ w ∉ stack x) s s' I _ _ _ Hp); [done|..].
  - intros s1 s2 I1 I2 H1 IH H Hc. assert (prims s1 s2) as H' by (by apply rtc_once).
    assert (calls s1 w = calls s w ∧ calls s2 w = calls s1 w) as [Hc1 Hc2].
    { pose proof (sprims_calls s s1 w I H1). pose proof (prims_calls E s1 s2 w H'). lia. }
    destruct (IH Hc1) as [Hw Hn]. split.
    + rewrite <- Hw. exact (prims_cached_back E s1 s2 w I1 H' Hn Hc2).
    + exact (proj2 (prims_state_cases E s1 s2 w I1 H' Hn Hc2)).
  - intros s1 s2 I1 I2 H1 IH Q. rewrite (quiet_calls _ _ _ Q), (quiet_cached _ _ _ Q). intros Hc. destruct (IH Hc) as [? Hn].
    split; [done|]. intros Hin. by apply Hn, (quiet_stack _ _ _ Q).
Qed.
Lemma sprims_leaves s s' l :
  Inv s → stack s = [] → sprims s s' → trace s' = l ++ trace s →
  (∀ w b, cached s w = Some b → cached s' w = Some b ∧ calls s' w = calls s w) ∧
  (∀ w b, cached s' w = Some b → cached s w = Some b ∨ EBuilt w b ∈ l) ∧
  (∀ u w, depends s' u w ↔ depends s u w ∨ EResolve u w ∈ l) ∧
  (∀ w, calls s' w = calls s w → cached s' w = cached s w) ∧
  (∀ w v, state_of s w = Some v → calls s' w = calls s w → state_of s' w = Some v).
Proof.
  intros I Hst Hp Hl. assert (∀ w, w ∉ stack s) as Hns by (intros w; rewrite Hst; apply not_elem_of_nil).
  split_and!.
  - intros w b Hw. destruct (sprims_cached s s' w b I Hp (Hns w) Hw) as (? & _ & ?). done.
  - intros w b. exact (sprims_cached_new s s' l w b I Hp Hl).
  - intros u w. exact (sprims_depends s s' l u w I Hp Hl).
  - intros w. exact (sprims_uncalled s s' w I Hp (Hns w)).
  - intros w v Hv Hc. destruct (sprims_state s s' w v I Hp (Hns w) Hv) as [?|[? _]]; [lia|done].
Qed.

Lemma pops s l S : stack s = l ++ S → sprims s (set_stack S s).
Proof.
  revert s. induction l as [|u l IH]; intros s Hst.
  - assert (set_stack S s = s) as -> by (destruct s; cbn in *; by subst). done.
  - eapply rtc_l; [by apply (sp_pop s u (l ++ S))|]. exact (IH (set_stack (l ++ S) s) eq_refl).
Qed.
Lemma sprims_got s s' u w r S d wa h ua du :
  Inv s → sprims s s' → stack s' = u :: S → objs s !! u = Some (du, ua) → edge s ua wa → known (ch s) !! wa = Some w →
  promise w s' = Some (d, wa) →
  (∃ e, artifacts (ch s') !! wa = Some e ∧ r = conv h (ar_bin e)) ∨ (∃ e t, r = RvErr e ∧ trace s' = EFailed w e :: t) →
  prim s' (log (EGot u w r) s').
Proof.
  intros I Hp Hst Hu He Hk Hw Hr. eapply pm_got; [exact Hst|exact Hw|exact Hr|exists w; by eapply sprims_known|].
  destruct (sprims_edge s s' ua wa I Hp He) as (X & HX & Hin). exists du, ua, X. split_and!; [by eapply sprims_objs|done..].
Qed.

Context (W : weather).

Definition bld_ok_s (bld : obj → st → outcome bres) : Prop :=
  ∀ o s d a, promise o s = Some (d, a) → artifacts (ch s) !! a = None → Inv s →
    (∀ s', ends (bld o s) s' → sprims s s' ∧ ∃ l, stack s' = l ++ stack s) ∧
    (∀ k s', bld o s = Panic k s' → k = PkUser) ∧
    (∀ r s', bld o s = Done r s' → stack s' = stack s ∧ o ∈ alive s' ∧
       match r with
       | BOk e => artifacts (ch s') !! a = Some e ∧ ar_ty e = bd_aty d ∧
           ∃ sx, sprims s sx ∧ stack sx = o :: stack s ∧ prim sx s' ∧ trace s' = EBuilt o (ar_bin e) :: trace sx
       | BErr e => ∃ t, trace s' = EFailed o e :: t end).

Lemma turned_quiet B s s' a : turned E B s s' → artifacts (ch s') !! a = artifacts (ch s) !! a.
Proof. intros T. by rewrite (tu_ch _ _ _ _ T). Qed.

(** What is needed of an outcome. *)
Definition fine {A} (s : st) (x : outcome A) : Prop :=
  (∀ s', ends x s' → sprims s s' ∧ ∃ l, stack s' = l ++ stack s) ∧ (∀ k s', x = Panic k s' → k = PkUser) ∧
  (∀ r s', x = Done r s' → stack s' = stack s).
Lemma fine_none {A} s (x : outcome A) : (x = NoFuel ∨ x = Illegal) → fine s x.
Proof. intros H. split_and!; [intros s' [[? ?]|[? ?]]; naive_solver|naive_solver..]. Qed.
Lemma fine_l {A} s s1 (x : outcome A) : sprims s s1 → stack s1 = stack s → fine s1 x → fine s x.
Proof.
  intros Hp Hst (F1 & F2 & F3). split_and!; [|done|].
  - intros s' Hs'. destruct (F1 s' Hs') as [? [l Hl]]. split; [by etrans|]. exists l. by rewrite Hl, Hst.
  - intros r s' Hr. rewrite <- Hst. by eapply F3.
Qed.
Lemma fine_done {A} s (r : A) : fine s (Done r s).
Proof. split_and!; [|done|]. - intros s' [[? [= <- <-]]|[? ?]]; [split; [done|by exists []]|done]. - by intros ? ? [= <- <-]. Qed.
Lemma fine_panic {A} s : fine s (Panic (A := A) PkUser s).
Proof. split_and!; [|by intros ? ? [= <- <-]|done]. intros s' [[? ?]|[? [= <- <-]]]; [done|]. split; [done|by exists []]. Qed.

Lemma meanwhile_fine {R} B s (k : st → outcome R) :
  Inv s → (∀ s1, turned E B s s1 → Inv s1 → fine s1 (k s1)) → fine s (meanwhile E (w_others W) B s k).
Proof.
  intros I Hk. unfold meanwhile. destruct (performs E B _ s) as [s1|] eqn:Hp; [|apply fine_none; by right].
  pose proof (performs_turned _ _ _ _ I Hp) as T. pose proof (prims_Inv E _ _ (tu_prims _ _ _ _ T) I) as I1.
  eapply fine_l; [|apply T|by apply Hk]. apply prims_sprims, T.
Qed.

Lemma get_s_ok bld h o s :
  bld_ok_s bld → Inv s →
  fine s (get_s W E bld h o s) ∧
  (∀ r s', get_s W E bld h o s = Done r s' → ∃ d a, promise o s' = Some (d, a) ∧
     ((∃ e, artifacts (ch s') !! a = Some e ∧ r = conv h (ar_bin e)) ∨
      (∃ e t, r = RvErr e ∧ trace s' = EFailed o e :: t))).
Proof.
  intros Hb I. unfold get_s.
  destruct (promise o s) as [[d a]|] eqn:Hp; [|split; [apply fine_none; by right|done]].
  destruct (how_legal E h); [|split; [apply fine_none; by right|done]].
  set (k := λ s : st, _).
  assert (∀ s1, turned E [o] s s1 → Inv s1 → fine s1 (k s1) ∧
    (∀ r s', k s1 = Done r s' → ∃ d a, promise o s' = Some (d, a) ∧
     ((∃ e, artifacts (ch s') !! a = Some e ∧ r = conv h (ar_bin e)) ∨
      (∃ e t, r = RvErr e ∧ trace s' = EFailed o e :: t)))) as Hk.
  { intros s1 T I1. pose proof (turned_promise _ _ _ _ _ _ _ T Hp (elem_of_list_here _ _)) as Hp1.
    unfold k. rewrite (lookup_art_ok _ o s1 d a I1 Hp1).
    destruct (artifacts (ch s1) !! a) as [e|] eqn:He.
    { split; [apply fine_done|]. intros r s' [= <- <-]. exists d, a. split; [done|]. left; eauto. }
    destruct (Hb o s1 d a Hp1 He I1) as (B1 & B2 & B3).
    destruct (bld o s1) as [[e|e] s2|pk s2| |] eqn:Hbld.
    - destruct (B3 _ _ eq_refl) as (Hst & Hal & Hart & Hty & _). rewrite Hty, N.eqb_refl.
      destruct (B1 s2) as [P _]; [left; eauto|]. split.
      + eapply fine_l; [exact P|exact Hst|apply fine_done].
      + intros r s' [= <- <-]. exists d, a. split; [|left; eauto]. apply promise_Some. split; [done|].
        apply promise_Some in Hp1 as [_ Ho]. by eapply sprims_objs.
    - destruct (B3 _ _ eq_refl) as (Hst & Hal & t & Ht).
      destruct (B1 s2) as [P _]; [left; eauto|]. split.
      + eapply fine_l; [exact P|exact Hst|apply fine_done].
      + intros r s' [= <- <-]. exists d, a. split; [|right; eauto]. apply promise_Some. split; [done|].
        apply promise_Some in Hp1 as [_ Ho]. by eapply sprims_objs.
    - split; [|done]. rewrite (B2 _ _ eq_refl). split_and!; [|by intros ? ? [= <- <-]|done].
      intros s' [[? ?]|[? [= <- <-]]]; [done|]. apply B1. right; eauto.
    - split; [apply fine_none; by left|done].
    - split; [apply fine_none; by right|done]. }
  split.
  - apply meanwhile_fine; [done|]. intros s1 T I1. by apply Hk.
  - unfold meanwhile. destruct (performs E [o] _ s) as [s1|] eqn:Hpf; [|done].
    pose proof (performs_turned _ _ _ _ I Hpf) as T. apply Hk; [done|]. exact (prims_Inv E _ _ (tu_prims _ _ _ _ T) I).
Qed.

Lemma resolve_s_ok bld u du ua h w s S :
  bld_ok_s bld → Inv s → stack s = u :: S → objs s !! u = Some (du, ua) → fine s (resolve_s W E bld u ua h w s).
Proof.
  intros Hb I Hst Hu. unfold resolve_s.
  destruct (promise w s) as [[d wa]|] eqn:Hp; [|apply fine_none; by right].
  assert (prim s (set_ch (make_known wa w (ch s)) s)) as Hk by (eapply pm_know; eauto).
  destruct (i_stack _ I u) as (_ & d' & a' & Hu' & Hku & _); [rewrite Hst; left|].
  assert (a' = ua) as -> by congruence.
  destruct (shows_ex s) as [A HA]. destruct (shows_track E s A u S du ua w d wa I HA Hst Hu Hp) as (c & Htd & P1 & _).
  rewrite Htd. cbv zeta. set (s1 := log (EResolve u w) (set_ch c s)) in *.
  pose proof (prims_Inv E _ _ P1 I) as I1.
  destruct (w_doctor W (trace s1)).
  { eapply fine_l; [by apply prims_sprims|done|]. apply fine_panic. }
  assert (edge s1 ua wa ∧ is_Some (known (ch s1) !! wa)) as [He1 Hk1].
  { unfold track_dependency in Htd. destruct (e_dbg E && _); [done|]. injection Htd as <-. unfold edge, s1. cbn. split.
    - unfold insert_in. rewrite lookup_insert. eexists. split; [done|]. set_solver.
    - apply make_known_known. }
  assert (promise w s1 = Some (d, wa)) as Hp1 by exact Hp.
  destruct Hk1 as [w' Hk1]. assert (w' = w) as -> by (exact (Inv_known_is s1 w d wa w' I1 Hp1 Hk1)).
  destruct (get_s_ok bld h w s1 Hb I1) as [(G1 & G2 & G3) G4].
  destruct (get_s W E bld h w s1) as [r s2|k s2| |] eqn:Hg.
  - destruct (G1 s2) as [P2 _]; [left; eauto|]. pose proof (G3 _ _ eq_refl) as Hst2.
    destruct (G4 _ _ eq_refl) as (d2 & a2 & Hp2 & Hr).
    assert (objs s1 !! w = Some (d, wa)) as Hw1 by (by apply promise_Some in Hp1 as [_ ?]).
    assert (objs s2 !! w = Some (d, wa)) as Hw2 by (exact (sprims_objs s1 s2 w (d, wa) I1 P2 Hw1)).
    apply promise_Some in Hp2 as Hp2'. destruct Hp2' as [Hal2 Ho2]. assert (a2 = wa) as -> by congruence.
    eapply (fine_l s (log (EGot u w r) s2)).
    + etrans; [by apply prims_sprims|]. eapply rtc_r; [exact P2|]. apply sp_prim.
      eapply (sprims_got s1 s2 u w r S d2 wa h ua du I1 P2); [by rewrite Hst2|exact Hu|exact He1|exact Hk1|exact Hp2|exact Hr].
    + cbn. by rewrite Hst2.
    + apply fine_done.
  - eapply fine_l; [by apply prims_sprims|done|]. split_and!; [intros s' Hs'; apply G1, Hs'|apply G2|done].
  - apply fine_none; by left.
  - apply fine_none; by right.
Qed.

Lemma exec_s_ok bld u du ua S :
  bld_ok_s bld → ∀ p s, Inv s → stack s = u :: S → objs s !! u = Some (du, ua) →
  fine s (exec_s W E bld u ua (bd_sty du) p s).
Proof.
  intros Hb p.
  induction p as [r| |h w k IH|k IH|v p IH|k IH|v k IH|d k IH|w p IH]; intros s0 I0 Hst0 Hu0; cbn [exec_s];
    (apply meanwhile_fine; [done|]); intros s T I; pose proof (tu_stack _ _ _ _ T) as Hst; rewrite Hst0 in Hst;
    pose proof (tu_objs _ _ _ _ T _ _ Hu0) as Hu; clear s0 I0 Hst0 Hu0 T.
  - apply fine_done.
  - apply fine_panic.
  - pose proof (resolve_s_ok bld u du ua h w s S Hb I Hst Hu) as (R1 & R2 & R3).
    destruct (resolve_s W E bld u ua h w s) as [r s1|pk s1| |] eqn:Hr.
    + destruct (R1 s1) as [P1 _]; [left; eauto|]. pose proof (R3 _ _ eq_refl) as Hst1.
      eapply fine_l; [exact P1|exact Hst1|]. apply IH; [by eapply sprims_Inv|congruence|by eapply sprims_objs].
    + destruct (R1 s1) as [P1 [l Hl]]; [right; eauto|]. rewrite (R2 _ _ eq_refl).
      destruct (w_catch W (tick s1) u w) as [v|].
      * assert (sprims s (tock (set_stack (stack s) s1))) as P2.
        { etrans; [exact P1|]. eapply rtc_r; [exact (pops s1 l (stack s) Hl)|]. apply sp_prim, pm_tick. }
        eapply fine_l; [exact P2|done|]. apply IH; [by eapply sprims_Inv|done|by eapply sprims_objs].
      * split_and!; [intros s' [[? ?]|[? [= <- <-]]]; [done|]; split; [done|by exists l]|by intros ? ? [= <- <-]|done].
    + apply fine_none; by left.
    + apply fine_none; by right.
  - destruct (my_state_at E s u S du ua I Hst Hu) as (v & -> & _). by apply IH.
  - destruct (my_state_at E s u S du ua I Hst Hu) as (v' & -> & _ & _ & Hd).
    set (s1 := set_ch _ s). assert (prim s s1) as P1 by (eapply pm_set; eauto).
    eapply (fine_l s s1); [by apply rtc_once, sp_prim|done|]. apply IH; [by eapply prim_Inv|done|done].
  - eapply (fine_l s (tock s)); [apply rtc_once, sp_prim, pm_tick|done|]. apply IH; [by apply Inv_tock|done..].
  - eapply (fine_l s (set_nbin (N.succ (nbin s)) s)); [apply rtc_once, sp_prim, pm_newbin|done|].
    apply IH; [exact (prim_Inv E _ _ (pm_newbin E s) I)|done..].
  - destruct (alloc E d s) as [[o s1]|] eqn:Ha; [|apply fine_none; by right].
    assert (prim s s1) as P1 by (eapply pm_alloc; eauto).
    apply alloc_Some in Ha as Ha'. destruct Ha' as (_ & Hs1 & _).
    assert (stack s1 = stack s) as Hst1 by (by rewrite Hs1).
    eapply (fine_l s s1); [by apply rtc_once, sp_prim|done|].
    apply IH; [by eapply prim_Inv|congruence|exact (prim_objs E s s1 u _ P1 (i_wf _ I) Hu)].
  - destruct (drop_obj w s) as [s1|] eqn:Ha; [|apply fine_none; by right].
    assert (prim s s1) as P1 by (eapply pm_drop; eauto).
    apply drop_Some in Ha as Ha'. destruct Ha' as (_ & _ & Hs1).
    assert (stack s1 = stack s) as Hst1 by (by rewrite Hs1).
    eapply (fine_l s s1); [by apply rtc_once, sp_prim|done|].
    apply IH; [by eapply prim_Inv|congruence|exact (prim_objs E s s1 u _ P1 (i_wf _ I) Hu)].
Qed.

(** [ensure_dyn_state] with any initial value. *)
Lemma ensure_s o s d a init :
  Inv s → promise o s = Some (d, a) →
  ∃ c2 r, ensure_dyn_state a o (bd_sty d) init (ch s) = (c2, r) ∧ sprims s (set_ch c2 s) ∧
    artifacts c2 = artifacts (ch s) ∧ known c2 !! a = Some o ∧
    match r with inl k => k = PkUser ∧ init = None ∧ dyn_states (ch s) !! a = None | inr v => ∃ x, dyn_states c2 !! a = Some x ∧ ds_val x = v ∧ ds_ty x = bd_sty d end.
Proof.
  intros I Hp. unfold ensure_dyn_state.
  assert (prim s (set_ch (make_known a o (ch s)) s)) as Hk by (eapply pm_know; eauto).
  pose proof (prim_Inv E _ _ Hk I) as I1.
  pose proof (make_known_known a o (ch s)) as [o' Hkn].
  assert (o' = o) as -> by (exact (Inv_known_is (set_ch (make_known a o (ch s)) s) o d a o' I1 Hp Hkn)).
  destruct (make_known_fields a o (ch s)) as (Ha & Hs & _).
  apply promise_Some in Hp as Hp'. destruct Hp' as [_ Ho].
  destruct (dyn_states (make_known a o (ch s)) !! a) as [v|] eqn:Hv.
  - rewrite (ci_dyn_ty _ _ (i_c _ I1) a v o d Hv Hkn Ho), N.eqb_refl. eexists _, _. split; [done|].
    split_and!; [by apply rtc_once, sp_prim|done|done|]. exists v. split_and!; [done..|]. exact (ci_dyn_ty _ _ (i_c _ I1) a v o d Hv Hkn Ho).
  - destruct init as [v|].
    + eexists _, _. split; [done|]. split_and!; [|done|done|].
      * eapply rtc_l; [apply sp_prim, Hk|]. apply rtc_once.
        apply (sp_dyn (set_ch (make_known a o (ch s)) s) o d a v); [done|by exists o|exact Hv].
      * exists (Dst (bd_sty d) v). cbn. by rewrite lookup_insert.
    + eexists _, _. split; [done|]. split_and!; [by apply rtc_once, sp_prim|done..|]. by rewrite Hs in Hv.
Qed.

Lemma build_s_ok fuel : bld_ok_s (build_s W E fuel).
Proof.
  induction fuel as [|fuel IH]; intros o s0 d a Hp0 Hna0 I0; cbn [build_s].
  { split_and!; [intros s' [[? ?]|[? ?]]|..]; done. }
  rewrite Hp0. unfold meanwhile. destruct (performs E [o] _ s0) as [s|] eqn:Hpf.
  2: { split_and!; [intros s' [[? ?]|[? ?]]|..]; done. }
  pose proof (performs_turned _ _ _ _ I0 Hpf) as T. pose proof (prims_Inv E _ _ (tu_prims _ _ _ _ T) I0) as I.
  pose proof (turned_promise _ _ _ _ _ _ _ T Hp0 (elem_of_list_here _ _)) as Hp.
  assert (artifacts (ch s) !! a = None) as Hna by (by rewrite (turned_quiet _ _ _ a T)).
  pose proof (prims_sprims _ _ (tu_prims _ _ _ _ T)) as P0. pose proof (tu_stack _ _ _ _ T) as Hst0.
  unfold contains_artifact. rewrite Hna, (bool_decide_eq_false_2 (is_Some None)) by (intros [? ?]; done). rewrite andb_false_r. cbv zeta.
  assert (prim s (set_ch (make_known a o (ch s)) s)) as Hk by (eapply pm_know; eauto).
  destruct (ensure_s o (set_ch (make_known a o (ch s)) s) d a (w_init W (tick s) o d) (prim_Inv E _ _ Hk I) Hp) as (c2 & r & He & P1 & Ha2 & Hk2 & Hr).
  cbn [ch set_ch] in He, Ha2. rewrite He.
  assert (sprims s (set_ch c2 s)) as P02 by (eapply rtc_l; [apply sp_prim, Hk|exact P1]). clear P1.
  destruct r as [k|v].
  { destruct Hr as [-> _]. split_and!; [|by intros ? ? [= <- <-]|done]. intros s' [[? ?]|[? [= <- <-]]]; [done|]. split; [by etrans|].
    exists []. exact Hst0. }
  destruct Hr as (x & Hx & _). apply promise_Some in Hp as Hp'. destruct Hp' as [Hal Ho].
  set (s1 := log (ECall o) _).
  assert (sprims s s1) as P1.
  { eapply rtc_r; [exact P02|]. apply sp_prim. eapply (pm_push E (set_ch c2 s) o d a); [done|by exists o|by exists x|].
    cbn. rewrite Ha2. by rewrite (proj1 (make_known_fields _ _ _)). }
  pose proof (sprims_Inv _ _ P1 I) as I1.
  destruct (exec_s_ok (build_s W E fuel) o d a (stack s) IH (bd_body d) s1 I1 eq_refl Ho) as (X1 & X2 & X3).
  destruct (exec_s W E (build_s W E fuel) o a (bd_sty d) (bd_body d) s1) as [[b|e] s2|k s2| |] eqn:Hex.
  - destruct (X1 s2) as [P2 _]; [left; eauto|]. pose proof (X3 _ _ eq_refl) as Hst2. cbn in Hst2.
    assert (sprims s0 s2) as P3 by (etrans; [exact P0|]; by etrans).
    destruct (w_doctor W (EBuilt o b :: trace s2)).
    { split_and!; [|by intros ? ? [= <- <-]|done]. intros s' [[? ?]|[? [= <- <-]]]; [done|]. split; [done|]. exists [o]. by rewrite Hst2, Hst0. }
    cbn [artifacts set_artifacts]. rewrite lookup_insert.
    assert (objs s2 !! o = Some (d, a)) as Ho2 by (exact (sprims_objs s1 s2 o _ I1 P2 Ho)).
    set (s3 := set_stack _ _).
    assert (prim s2 s3) as P4 by (exact (pm_ok E s2 o d a (stack s) b Hst2 Ho2)).
    split_and!; [|done|].
    + intros s' [[? [= <- <-]]|[? ?]]; [|done]. split; [|exists []; exact Hst0]. eapply rtc_r; [exact P3|]. by apply sp_prim.
    + intros r s' [= <- <-]. split; [exact Hst0|]. split.
      { pose proof (sprims_Inv _ _ P2 I1) as I2. cbn. apply (i_stack _ I2). rewrite Hst2. left. }
      split; [cbn; by rewrite lookup_insert|]. split; [done|]. exists s2. split; [done|]. split; [by rewrite Hst2, Hst0|]. split; done.
  - destruct (X1 s2) as [P2 _]; [left; eauto|]. pose proof (X3 _ _ eq_refl) as Hst2. cbn in Hst2.
    assert (sprims s0 s2) as P3 by (etrans; [exact P0|]; by etrans).
    split_and!; [|done|].
    + intros s' [[? [= <- <-]]|[? ?]]; [|done]. split; [|exists []; exact Hst0]. eapply rtc_r; [exact P3|]. apply sp_prim. by apply pm_fail.
    + intros r s' [= <- <-]. split; [exact Hst0|]. split; [|by eexists].
      pose proof (sprims_Inv _ _ P2 I1) as I2. cbn. apply (i_stack _ I2). rewrite Hst2. left.
  - destruct (X1 s2) as [P2 [l Hl]]; [right; eauto|]. rewrite (X2 _ _ eq_refl).
    split_and!; [|by intros ? ? [= <- <-]|done]. intros s' [[? ?]|[? [= <- <-]]]; [done|]. split; [etrans; [exact P0|]; by etrans|].
    exists (l ++ [o]). rewrite Hl, <- app_assoc. cbn. by rewrite Hst0.
  - split_and!; [intros s' [[? ?]|[? ?]]|..]; done.
  - split_and!; [intros s' [[? ?]|[? ?]]|..]; done.
Qed.
End StormFacts.
