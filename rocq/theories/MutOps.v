(** Exact effects of the dynamic state accessors and of mutable access. *)
From Verif Require Export BuildFacts.
From stdpp Require Import relations.

Lemma set_ch_id s : set_ch (ch s) s = s.
Proof. by destruct s. Qed.

(** Observables only look at these fields. *)
Lemma obs_ext s s' :
  objs s' = objs s → known (ch s') = known (ch s) →
  (artifacts (ch s') = artifacts (ch s) → ∀ w, cached s' w = cached s w) ∧
  (dyn_states (ch s') = dyn_states (ch s) → ∀ w, state_of s' w = state_of s w) ∧
  (∀ w, knows s' w ↔ knows s w) ∧
  (dependents (ch s') = dependents (ch s) → ∀ u w, depends s' u w ↔ depends s u w).
Proof.
  intros Ho Hk. unfold cached, state_of, knows, depends, at_addr. rewrite Ho, Hk.
  split_and!; [by intros ->|by intros ->|done|by intros ->].
Qed.

Section MutOps.
Context (E : env).

(** [ensure_dyn_state] seen from outside. *)
Lemma ensure_effect o s d a :
  Inv s → promise o s = Some (d, a) →
  ∃ c, Inv (set_ch c s) ∧
    match state_of s o, bd_init d with
    | Some v, _ => ensure_dyn_state a o (bd_sty d) (bd_init d) (ch s) = (c, inr v) ∧
        sets_state s o (Some v) (set_ch c s)
    | None, Some v => ensure_dyn_state a o (bd_sty d) (bd_init d) (ch s) = (c, inr v) ∧
        sets_state s o (Some v) (set_ch c s)
    | None, None => ensure_dyn_state a o (bd_sty d) (bd_init d) (ch s) = (c, inl PkUser) ∧
        sets_state s o None (set_ch c s)
    end.
Proof.
  intros I Hp. destruct (ensure_ok E o s d a I Hp) as (c & Hkn & _ & Hart & Hdt & _ & I' & Hm).
  exists c. split; [done|]. apply promise_Some in Hp as Hp'. destruct Hp' as [Hal Ho].
  rewrite (live_state s o d a I Hp).
  assert (∀ a' o', known c !! a' = Some o' ↔ known (ch s) !! a' = Some o' ∨ (a' = a ∧ o' = o)) as Hknown.
  { intros a' o'. rewrite Hkn. split.
    - unfold make_known. destruct (known (ch s) !! a) as [z|] eqn:Ha; [auto|]. cbn.
      intros [[<- <-]|[? ?]]%lookup_insert_Some; auto.
    - intros [H|[-> ->]]; [by apply make_known_mono|]. unfold make_known.
      destruct (known (ch s) !! a) as [z|] eqn:Ha; [|cbn; by rewrite lookup_insert].
      rewrite Ha. f_equal. exact (Inv_known_is s o d a z I Hp Ha). }
  assert (∀ w, knows (set_ch c s) w ↔ knows s w ∨ w = o) as Hknows.
  { intros w. split.
    - intros (d' & a' & Hw & Hk). cbn in Hk. apply Hknown in Hk as [Hk|[-> ->]]; [|auto].
      left. exists d', a'. done.
    - intros [(d' & a' & Hw & Hk)| ->].
      + exists d', a'. split; [done|]. cbn. apply Hknown. auto.
      + exists d, a. split; [done|]. cbn. apply Hknown. auto. }
  assert (∀ w, w ≠ o → knows (set_ch c s) w ↔ knows s w) as Hknows' by (intros w Hw; rewrite Hknows; tauto).
  assert (∀ w, cached (set_ch c s) w = cached s w) as Hcached.
  { intros w. destruct (decide (w = o)) as [->|Hne].
    - rewrite (live_cached s o d a I Hp). unfold promise in Hp.
      rewrite (live_cached (set_ch c s) o d a I' Hp). cbn. by rewrite Hart.
    - unfold cached. cbn. rewrite Hart. destruct (objs s !! w) as [[d' a']|] eqn:Hw; [|done].
      destruct (decide (known c !! a' = Some w)) as [Hk|Hk], (decide (known (ch s) !! a' = Some w)) as [Hk'|Hk']; try done.
      + apply Hknown in Hk as [?|[-> ->]]; done.
      + exfalso. apply Hk. apply Hknown. auto. }
  assert (∀ w, w ≠ o → dyn_states c !! a = dyn_states (ch s) !! a ∨ True →
    (∀ x, x ≠ a → dyn_states c !! x = dyn_states (ch s) !! x) →
     state_of (set_ch c s) w = state_of s w) as Hst.
  { intros w Hne _ Hx. unfold state_of. cbn. destruct (objs s !! w) as [[d' a']|] eqn:Hw; [|done].
    destruct (decide (known c !! a' = Some w)) as [Hk|Hk], (decide (known (ch s) !! a' = Some w)) as [Hk'|Hk']; try done.
    - destruct (decide (a' = a)) as [->|Hna]; [|by rewrite Hx].
      exfalso. apply Hne. exact (Inv_known_is s o d a w I Hp Hk').
    - apply Hknown in Hk as [?|[-> ->]]; done.
    - exfalso. apply Hk. apply Hknown. auto. }
  assert (∀ u w, depends (set_ch c s) u w ↔ depends s u w) as Hdep.
  { intros u w. split.
    - intros (du & ua & dw & wa & X & Hu & Hku & Hw & Hkw & HX & Hin). cbn in *. rewrite Hdt in HX.
      destruct (ci_edge_known _ _ (i_c _ I) wa ua) as [[w' Hw'] [u' Hu']]; [unfold dep_rel; by rewrite HX|].
      exists du, ua, dw, wa, X. split_and!; try done.
      + apply Hknown in Hku as [?|[-> ->]]; [done|]. assert (u' = o) as -> by exact (Inv_known_is s o d a u' I Hp Hu'). done.
      + apply Hknown in Hkw as [?|[-> ->]]; [done|]. assert (w' = o) as -> by exact (Inv_known_is s o d a w' I Hp Hw'). done.
    - intros (du & ua & dw & wa & X & Hu & Hku & Hw & Hkw & HX & Hin).
      exists du, ua, dw, wa, X. cbn. rewrite Hdt, !Hknown. split_and!; auto. }
  unfold promise in Hp.
  destruct (dyn_states (ch s) !! a) as [v|] eqn:Hv; cbn [fmap option_fmap option_map].
  - destruct Hm as [Heq Hd]. split; [done|]. split; try done.
    + rewrite (live_state (set_ch c s) o d a I' Hp). cbn. by rewrite Hd, Hv.
    + intros w Hne. apply Hst; auto. by rewrite Hd.
  - destruct (bd_init d) as [v|] eqn:Hi; destruct Hm as [Heq Hd]; (split; [done|]); split; try done.
    + rewrite (live_state (set_ch c s) o d a I' Hp). cbn. by rewrite Hd, lookup_insert.
    + intros w Hne. apply Hst; auto. intros x Hx. by rewrite Hd, lookup_insert_ne.
    + rewrite (live_state (set_ch c s) o d a I' Hp). cbn. by rewrite Hd, Hv.
    + intros w Hne. apply Hst; auto. by rewrite Hd.
Qed.

Lemma initial_promise s o d a : promise o s = Some (d, a) → initial s o = bd_init d.
Proof. intros [_ H]%promise_Some. unfold initial. by rewrite H. Qed.

Lemma dyn_state_effect n o s :
  Inv s → live s o →
  match state_of s o, initial s o with
  | Some v, _ => step E n (ODynState o) s = Done (OutVal v) s
  | None, Some v => ∃ s', step E n (ODynState o) s = Done (OutVal v) s' ∧ sets_state s o (Some v) s'
  | None, None => ∃ s', step E n (ODynState o) s = Panic PkUser s' ∧ sets_state s o None s'
  end.
Proof.
  intros I Hl. destruct (live_promise s o I Hl) as (d & a & Hp).
  rewrite (initial_promise s o d a Hp). cbn [step]. rewrite Hp.
  destruct (state_of s o) as [v|] eqn:Hv.
  - rewrite (live_state s o d a I Hp) in Hv. destruct (dyn_states (ch s) !! a) as [v'|] eqn:Hv'; [|done].
    destruct (ci_dyn_known _ _ (i_c _ I) a) as [o' Hk]; [by eauto|].
    assert (o' = o) as -> by (exact (Inv_known_is s o d a o' I Hp Hk)).
    unfold ensure_dyn_state, make_known. rewrite Hk, Hv'.
    apply promise_Some in Hp as [_ Ho].
    rewrite (ci_dyn_ty _ _ (i_c _ I) a v' o d Hv' Hk Ho), N.eqb_refl.
    rewrite set_ch_id. by injection Hv as ->.
  - destruct (ensure_effect o s d a I Hp) as (c & I' & Hm). rewrite Hv in Hm.
    destruct (bd_init d) as [v|]; destruct Hm as [-> Hs]; eauto.
Qed.

(** Overwriting the dynamic state under a known id. *)
Lemma set_dyn_effect s o d a t v :
  Inv s → promise o s = Some (d, a) → known (ch s) !! a = Some o →
  sets_state s o (Some v) (set_ch (set_dyn_states <[a := Dst t v]> (ch s)) s).
Proof.
  intros I Hp Hk. apply promise_Some in Hp as Hp'. destruct Hp' as [Hal Ho].
  set (s' := set_ch _ s).
  destruct (obs_ext s s' eq_refl eq_refl) as (Hc & _ & Hkn & Hd).
  split; try done.
  - rewrite (state_at s' o d a Ho Hk). cbn. by rewrite lookup_insert.
  - intros w Hne. unfold state_of. cbn. destruct (objs s !! w) as [[d' a']|] eqn:Hw; [|done].
    destruct (decide _) as [Hk'|Hk']; [|done]. rewrite lookup_insert_ne; [done|]. intros <-. congruence.
  - intros w. rewrite Hkn. split; [auto|]. intros [?| ->]; [done|]. by exists d, a.
Qed.

Lemma sets_state_trans s1 s2 s3 o v v' : sets_state s1 o v s2 → sets_state s2 o v' s3 → sets_state s1 o v' s3.
Proof.
  intros [H1 H2 H3 H4 H5 H6 H7 H8] [H1' H2' H3' H4' H5' H6' H7' H8']. split; try done.
  - intros w Hw. by rewrite H2', H2.
  - intros w. rewrite H3', H3. tauto.
  - intros w. by rewrite H4', H4.
  - intros u w. by rewrite H5', H5.
  - congruence.
  - intros w. by rewrite H7', H7.
  - intros w. by rewrite H8', H8.
Qed.

Lemma dyn_state_mut_effect n o f s :
  Inv s → stack s = [] → live s o →
  ∃ s1 s', forgets s (affected s o) (λ _, False) s1 ∧
  match (match state_of s o with Some v => Some v | None => initial s o end) with
  | Some v => step E n (ODynStateMut o f) s = Done (OutVal v) s' ∧ sets_state s1 o (Some (f v)) s'
  | None => step E n (ODynStateMut o f) s = Panic PkUser s' ∧ sets_state s1 o None s'
  end.
Proof.
  intros I Hst Hl. destruct (live_promise s o I Hl) as (d & a & Hp).
  destruct (invalidate_ok (e_dbg E) (prio E s 0) a (ch s) (ci_sync _ _ (i_c _ I))) as (C & c' & Heq & Hpr & HC).
  cbn [step]. rewrite Hp, Heq.
  set (s1 := log (EInvalidate o) (tock (set_ch c' s))).
  assert (forgets s (affected s o) (λ _, False) s1) as Hf.
  { eapply (pruned_forgets s s1 C ∅ ∅); try done. by eapply affected_C. }
  assert (Inv s1) as I1.
  { apply Inv_log, Inv_tock, Inv_set_ch; [done..| |].
    - eapply CInv_pruned; [exact (i_c _ I)| | | |exact Hpr]; [by eapply closure_closed|set_solver|set_solver].
    - by eapply pruned_known_pinned. }
  assert (promise o s1 = Some (d, a)) as Hp1 by done.
  destruct (ensure_effect o s1 d a I1 Hp1) as (c & I' & Hm).
  assert (state_of s o = state_of s1 o) as Hso by (symmetry; apply (fg_state_kept _ _ _ _ Hf); tauto).
  rewrite Hso, (initial_promise s o d a Hp).
  assert (∀ v, (∃ r, sets_state s1 o r (set_ch c s1)) →
    sets_state (set_ch c s1) o (Some v) (set_ch (set_dyn_states <[a := Dst (bd_sty d) v]> c) s1)) as Hset.
  { intros v [r Hr]. change (set_ch (set_dyn_states <[a:=Dst (bd_sty d) v]> c) s1)
      with (set_ch (set_dyn_states <[a := Dst (bd_sty d) v]> (ch (set_ch c s1))) (set_ch c s1)).
    eapply set_dyn_effect; [done|done|]. assert (knows (set_ch c s1) o) as Hk by (apply (ss_knows _ _ _ _ Hr); auto).
    destruct Hk as (d' & a' & Ho' & Hk). apply promise_Some in Hp as [_ Ho]. unfold at_addr in Ho'. cbn in Ho'.
    assert (a' = a) as -> by congruence. done. }
  destruct (state_of s1 o) as [v|]; [|destruct (bd_init d) as [v|]]; destruct Hm as [-> Hss].
  - exists s1. eexists. split; [done|]. split; [done|]. eapply sets_state_trans; [exact Hss|]. apply Hset; eauto.
  - exists s1. eexists. split; [done|]. split; [done|]. eapply sets_state_trans; [exact Hss|]. apply Hset; eauto.
  - exists s1. eexists. split; [done|]. split; [done|]. done.
Qed.

(** Writing through [&mut]. *)
Lemma write_effect s o d a f :
  Inv s → promise o s = Some (d, a) → writes s o f (set_ch (write_art a f (ch s)) s).
Proof.
  intros I Hp. set (s' := set_ch _ s).
  assert (Inv s') as I'.
  { split.
    - apply CInv_write_art, I.
    - exact (i_num _ I).
    - exact (i_alive _ I).
    - exact (i_addr _ I).
    - exact (i_stack _ I). }
  destruct (obs_ext s s' eq_refl eq_refl) as (_ & Hst & Hkn & Hd).
  assert (promise o s' = Some (d, a)) as Hp' by done.
  split; try done.
  - rewrite (live_cached s' o d a I' Hp'), (live_cached s o d a I Hp). cbn. rewrite lookup_alter.
    by destruct (artifacts (ch s) !! a).
  - intros w Hne. unfold cached. cbn. destruct (objs s !! w) as [[d' a']|] eqn:Hw; [|done].
    destruct (decide _) as [Hk'|Hk']; [|done]. rewrite lookup_alter_ne; [done|]. intros <-.
    apply Hne. exact (Inv_known_is s o d a w I Hp Hk').
Qed.

Lemma other_dependent s o d a :
  Inv s → promise o s = Some (d, a) →
  (∃ u, u ≠ o ∧ depends s u o) ↔ ∃ y, dep_rel (ch s) a y ∧ y ≠ a.
Proof.
  intros I Hp. apply promise_Some in Hp as Hp'. destruct Hp' as [Hal Ho]. split.
  - intros (u & Hne & Hd). pose proof Hd as (du & ua & dw & wa & X & Hu & Hku & Hw & Hkw & HX & Hin).
    unfold at_addr in *. assert (wa = a) as -> by congruence. exists ua. split; [unfold dep_rel; by rewrite HX|].
    intros ->. apply Hne. congruence.
  - intros (y & Hy & Hne). destruct (dep_rel_depends s a y I Hy) as (u & w & du & dw & Hu & Hku & Hw & Hkw & Hd).
    assert (w = o) as -> by exact (Inv_known_is s o d a w I Hp Hkw).
    exists u. split; [|done]. intros ->. unfold at_addr in *. congruence.
Qed.
Lemma self_dependent s o d a :
  Inv s → promise o s = Some (d, a) → depends s o o ↔ dep_rel (ch s) a a.
Proof.
  intros I Hp. apply promise_Some in Hp as Hp'. destruct Hp' as [Hal Ho]. split.
  - intros (du & ua & dw & wa & X & Hu & Hku & Hw & Hkw & HX & Hin).
    unfold at_addr in *. assert (wa = a) as -> by congruence. assert (ua = a) as -> by congruence.
    unfold dep_rel; by rewrite HX.
  - intros Hy. destruct (dep_rel_depends s a a I Hy) as (u & w & du & dw & Hu & Hku & Hw & Hkw & Hd).
    assert (w = o) as -> by exact (Inv_known_is s o d a w I Hp Hkw).
    assert (u = o) as -> by exact (Inv_known_is s o d a u I Hp Hku). done.
Qed.

(** What [lookup_mut] does before it hands out the artifact. *)
Lemma lookup_mut_effect o s d a :
  Inv s → stack s = [] → promise o s = Some (d, a) →
  ((∃ u, u ≠ o ∧ depends s u o) →
     ∃ c, lookup_mut (e_dbg E) (prio E s) a (bd_aty d) (ch s) = (CPanic PkCounterpart c, LNone)) ∧
  ((∀ u, depends s u o → u = o) →
     ∃ c, Inv (tock (set_ch c s)) ∧
       lookup_mut (e_dbg E) (prio E s) a (bd_aty d) (ch s) =
         (COk c, match cached (tock (set_ch c s)) o with Some b => LSome b | None => LNone end) ∧
       ((depends s o o ∧ forgets s (eq o) (λ _, False) (tock (set_ch c s))) ∨
        (¬ depends s o o ∧ same s (tock (set_ch c s))))).
Proof.
  intros I Hst Hp. destruct (lookup_mut_ok (e_dbg E) (prio E s) o s d a I Hp) as [H1 H2]. split.
  - intros Hex. apply H1. by eapply other_dependent.
  - intros Hno. assert (∀ y, dep_rel (ch s) a y → y = a) as Hno'.
    { intros y Hy. destruct (decide (y = a)); [done|]. exfalso.
      assert (∃ u, u ≠ o ∧ depends s u o) as (u & ? & ?) by (eapply other_dependent; eauto). naive_solver. }
    destruct (H2 Hno') as (c & Heq & HC & Hkn & Hlm). exists c.
    assert (Inv (tock (set_ch c s))) as I'.
    { apply Inv_tock, Inv_set_ch; [done..|]. intros a' o'. rewrite Hkn. intros Hk. right. by exists a'. }
    split; [done|]. split.
    { rewrite Hlm. f_equal. rewrite (live_cached (tock (set_ch c s)) o d a I' Hp). cbn.
      by destruct (artifacts c !! a). }
    destruct (inv_dependents_ok (e_dbg E) (prio E s) a (ch s) (ci_sync _ _ (i_c _ I)) Hno') as (c2 & Heq2 & Hcase).
    assert (c2 = c) as -> by congruence. apply promise_Some in Hp as Hp'. destruct Hp' as [Hal Ho].
    destruct Hcase as [[Hd Hpr]|(Hd & Ha & Hdy & Hk & Hdp & Hdt & Hlf)].
    + left. split; [by eapply self_dependent|]. eapply (pruned_forgets s _ {[a]} ∅ ∅); try done.
      intros w dw wa Hw Hkw. rewrite elem_of_singleton. split.
      * intros ->. symmetry. apply (Inv_known_is s o d a w I Hp). by eapply knows_at.
      * intros <-. unfold at_addr in Hw. congruence.
    + right. split; [by rewrite (self_dependent s o d a I Hp)|].
      destruct (obs_ext s (tock (set_ch c s)) eq_refl Hk) as (Hc & Hs & Hkn' & _).
      split; try done.
      * intros w _. by apply Hc.
      * intros w _. by apply Hs.
      * intros w. rewrite Hkn'. tauto.
      * intros u w. split; [|intros (? & _ & _)].
        -- intros (du & ua & dw & wa & X & Hu & Hku & Hw & Hkw & HX & Hin). cbn in *.
           rewrite Hdt in HX. apply lookup_delete_Some in HX as [Hne HX]. split; [|tauto].
           exists du, ua, dw, wa, X. rewrite Hk in *. done.
        -- pose proof H as (du & ua & dw & wa & X & Hu & Hku & Hw & Hkw & HX & Hin).
           exists du, ua, dw, wa, X. cbn. rewrite Hk, Hdt. rewrite lookup_delete_ne; [done|].
           intros <-. assert (ua = a) as -> by (apply Hno'; unfold dep_rel; by rewrite HX).
           apply Hd. unfold dep_rel. by rewrite HX.
Qed.

Lemma same_writes s s1 s2 o f : same s s1 → writes s1 o f s2 → writes s o f s2.
Proof.
  intros [_ H2 _ H4 H5 H6 H7 H8 H9] [H1' H2' H3' H4' H5' H6' H7' H8']. split.
  - rewrite H1', H2; tauto.
  - intros w Hw. rewrite H2', H2 by tauto. auto.
  - intros w. rewrite H3', H4 by tauto. auto.
  - intros w. rewrite H4', H5. tauto.
  - intros u w. rewrite H5', H6. tauto.
  - congruence.
  - intros w. by rewrite H7', H8.
  - intros w. by rewrite H8', H9.
Qed.
Lemma same_trans s s1 s2 : same s s1 → same s1 s2 → same s s2.
Proof.
  intros [_ H2 _ H4 H5 H6 H7 H8 H9] [_ H2' _ H4' H5' H6' H7' H8' H9']. split; try done.
  - intros w Hw. rewrite H2', H2 by tauto. auto.
  - intros w Hw. rewrite H4', H4 by tauto. auto.
  - intros w. rewrite H5', H5. tauto.
  - intros u w. rewrite H6', H6. tauto.
  - congruence.
  - intros w. by rewrite H8', H8.
  - intros w. by rewrite H9', H9.
Qed.

Lemma op_lookup_mut_effect n o f s :
  Inv s → stack s = [] → live s o → e_kind E = Boxed →
  ((∃ u, u ≠ o ∧ depends s u o) → ∃ s', step E n (OLookupMut o f) s = Panic PkCounterpart s') ∧
  ((∀ u, ¬ depends s u o) →
     ∃ s', step E n (OLookupMut o f) s = Done (OutOpt ((λ b, RvVal (bin_val b)) <$> cached s o)) s' ∧ writes s o f s') ∧
  ((∀ u, depends s u o ↔ u = o) →
     ∃ s', step E n (OLookupMut o f) s = Done (OutOpt None) s' ∧ forgets s (eq o) (λ _, False) s').
Proof.
  intros I Hst Hl Hk. destruct (live_promise s o I Hl) as (d & a & Hp).
  destruct (lookup_mut_effect o s d a I Hst Hp) as [H1 H2].
  cbn [step]. unfold op_lookup_mut. rewrite Hk, Hp. split_and!.
  - intros Hex. destruct (H1 Hex) as [c ->]. eauto.
  - intros Hno. destruct H2 as (c & I' & -> & [[Hd _]|[_ Hs]]); [naive_solver|naive_solver|].
    rewrite (fg_kept _ _ _ _ Hs o) by tauto.
    assert (writes s o f (set_ch (write_art a f c) (tock (set_ch c s)))) as Hw.
    { eapply same_writes; [exact Hs|]. exact (write_effect (tock (set_ch c s)) o d a f I' Hp). }
    destruct (cached s o) as [b|] eqn:Hc; [eexists; split; [done|exact Hw]|].
    eexists. split; [done|]. 
    destruct Hs as [_ G2 _ G4 G5 G6 G7 G8 G9]. split; try done.
    + rewrite G2, Hc by tauto. done.
    + intros w Hne. apply G2; tauto.
    + intros w. apply G4; tauto.
    + intros w. rewrite G5. tauto.
    + intros u w. rewrite G6. tauto.
  - intros Hself. destruct H2 as (c & I' & -> & [[Hd Hf]|[Hd _]]); [by intros u ?%Hself| |].
    + rewrite (fg_gone _ _ _ _ Hf o) by done. eauto.
    + exfalso. apply Hd. by apply Hself.
Qed.

Lemma op_get_mut_effect n o f s :
  Inv s → stack s = [] → live s o → e_kind E = Boxed →
  ((∃ u, u ≠ o ∧ depends s u o) → ∃ s', step E n (OGetMut o f) s = Panic PkCounterpart s') ∧
  (∀ b, (∀ u, ¬ depends s u o) → cached s o = Some b →
     ∃ s', step E n (OGetMut o f) s = Done (OutRes (RvVal (bin_val b))) s' ∧ writes s o f s' ∧ adds [] s s') ∧
  ((∀ u, depends s u o → u = o) → cached s o = None ∨ depends s o o →
     ∃ s1, Inv s1 ∧ stack s1 = [] ∧ adds [] s s1 ∧ alive s1 = alive s ∧
       ((¬ depends s o o ∧ same s s1) ∨ (depends s o o ∧ forgets s (eq o) (λ _, False) s1)) ∧
       match step E n (OGet HRef o) s1 with
       | Done (OutRes (RvVal v)) s2 =>
           ∃ s', step E n (OGetMut o f) s = Done (OutRes (RvVal v)) s' ∧ writes s2 o f s' ∧ adds [] s2 s'
       | x => step E n (OGetMut o f) s = x
       end).
Proof.
  intros I Hst Hl Hk. destruct (live_promise s o I Hl) as (d & a & Hp).
  destruct (lookup_mut_effect o s d a I Hst Hp) as [H1 H2].
  cbn [step]. unfold op_get_mut. rewrite Hk, Hp. split_and!.
  - intros Hex. destruct (H1 Hex) as [c ->]. eauto.
  - intros b Hno Hb. destruct H2 as (c & I' & -> & [[Hd _]|[_ Hs]]); [naive_solver|naive_solver|].
    rewrite (fg_kept _ _ _ _ Hs o), Hb by tauto.
    set (s1 := tock (set_ch c s)) in *.
    destruct (lookup_mut_effect o s1 d a I' Hst Hp) as [_ H3].
    assert (∀ u, ¬ depends s1 u o) as Hno1 by (intros u Hu; apply (fg_depends _ _ _ _ Hs) in Hu; naive_solver).
    destruct H3 as (c2 & I2 & -> & [[Hd _]|[_ Hs2]]); [naive_solver|naive_solver|].
    rewrite (fg_kept _ _ _ _ Hs2 o), (fg_kept _ _ _ _ Hs o), Hb by tauto.
    eexists. split; [done|]. split; [|done]. eapply same_writes; [eapply same_trans; [exact Hs|exact Hs2]|].
    exact (write_effect (tock (set_ch c2 s1)) o d a f I2 Hp).
  - intros Hno Hor. destruct (H2 Hno) as (c & I' & -> & Hcase).
    set (s1 := tock (set_ch c s)) in *.
    assert (cached s1 o = None) as Hc1.
    { destruct Hcase as [[Hd Hf]|[Hd Hs]].
      - by apply (fg_gone _ _ _ _ Hf).
      - rewrite (fg_kept _ _ _ _ Hs) by tauto. tauto. }
    exists s1. split; [done|]. do 3 (split; [done|]). split; [destruct Hcase; auto|]. rewrite Hc1.
    assert (promise o s1 = Some (d, a)) as Hp1 by done.
    rewrite (live_cached s1 o d a I' Hp1) in Hc1.
    assert (artifacts (ch s1) !! a = None) as Ha by (by destruct (artifacts (ch s1) !! a)).
    unfold get, get_with. rewrite Hp1, (lookup_art_ok _ o s1 d a I' Hp1), Ha.
    unfold how_legal. rewrite Hk.
    destruct (build E n o s1) as [[e|e] s2|k s2| |] eqn:Hb; try done.
    destruct (N.eqb_spec (ar_ty e) (bd_aty d)) as [Hty|Hty]; [|done]. cbn [conv].
    eexists. split; [done|]. split; [|done].
    assert (rtc (prim E) s1 s2) as Hpr.
    { eapply build_prims; [exact I'|exact Hp1|exact Ha|]. left. eauto. }
    assert (Inv s2) as I2 by (by eapply prims_Inv).
    destruct (build_alive E n o s1 d a _ s2 I' Hp1 Ha Hb) as [Hp2 _].
    by eapply write_effect.
Qed.

End MutOps.
