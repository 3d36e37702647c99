(** Lemmas behind Props20.v: calls and histories in a storm. *)
From Verif Require Export StormFacts.
From Verif Require Import Props15.
From stdpp Require Import relations.

Section StormStep.
Context (W : weather) (E : env).
Notation prim := (prim E).
Notation sprims := (rtc (sprim E)).

Definition good (s : st) : Prop :=
  Inv s ∧ stack s = [] ∧ all_built E s ∧ (reent s = false → coh s).
Lemma unwound_id s : stack s = [] → unwound s = s.
Proof. intros H. destruct s; cbn in *; by subst. Qed.

Lemma good_sprims s s' : good s → sprims s s' → good (unwound s').
Proof.
  intros (I & Hst & Hb & Hc) Hp. assert (Inv s') as I' by (by eapply sprims_Inv).
  split_and!; [by apply Inv_unwound|done|exact (all_built_unwound E s' (sprims_all_built E s s' I Hp Hb))|].
  intros Hre. change (reent s' = false) in Hre. apply coh_unwound.
  assert (reent s = false) as Hr by (by eapply sprims_reent).
  exact (sprims_coh E s s' I (nr_empty s Hst) Hp Hre (Hc Hr)).
Qed.
Lemma good_sprims_done s s' : good s → sprims s s' → stack s' = [] → good s'.
Proof. intros Hg Hp Hst. rewrite <- (unwound_id s' Hst). by eapply good_sprims. Qed.
Lemma good_turned B s s' : good s → turned E B s s' → good s'.
Proof.
  intros Hg T. eapply good_sprims_done; [done|apply prims_sprims, T|]. rewrite (tu_stack _ _ _ _ T). apply Hg.
Qed.
Lemma good_done n x s r s' : good s → step E n x s = Done r s' → good s'.
Proof. intros (I & Hst & Hb & Hc). by apply done_keeps. Qed.
Lemma good_panic n x s k s' : good s → step E n x s = Panic k s' → resumable k = true → good (unwound s').
Proof.
  intros (I & Hst & Hb & Hc) Hs Hk. assert (goes (step E n x s) s') as Hg by (right; eauto).
  assert (Inv (unwound s')) as I'.
  { destruct (step_panic E n x s k s' I Hst Hs) as [[_ ?]|[(_ & _ & -> & _)|[_ ->]]]; [done| |done].
    rewrite (unwound_id (tock s)) by done. by apply Inv_tock. }
  split_and!; [done..|exact (step_all_built E n x s s' I Hst Hg Hb)|].
  intros Hre. change (reent s' = false) in Hre.
  assert (reent s = false) as Hr by (exact (goes_reent E n x s s' I Hst Hg Hre)).
  exact (step_coh E n x s s' I Hst Hg Hre (Hc Hr)).
Qed.

(** ** The calls *)
(** What a call does in a storm (after the others had their turn): [y] is its outcome,
    [s'] where it ends. *)
Definition storms (n : nat) (x : op) (s : st) (y : outcome out) (s' : st) : Prop :=
  match x with
  | OGet _ _ | ODynState _ => sprims s s' ∧ (∀ k s'', y = Panic k s'' → k = PkUser) ∧ (∀ r s'', y = Done r s'' → stack s' = [])
  | OGetMut o f =>
      y = step E n x s ∨
      ∃ s1, step E n (OLookupMut o f) s = Done (OutOpt None) s1 ∧ (∀ k s'', y = Panic k s'' → k = PkUser) ∧
        ((sprims s1 s' ∧ (∀ r s'', y = Done r s'' → stack s' = [])) ∨
         ∃ sx s2 b, sprims s1 sx ∧ stack sx = [o] ∧ prim sx s2 ∧ trace s2 = EBuilt o b :: trace sx ∧
           stack s2 = [] ∧ writes s2 o f s' ∧ adds [] s2 s' ∧ Inv s' ∧ stack s' = [])
  | ODynStateMut o f =>
      ∃ s1 s2, step E n (OInvalidate o) s = Done OutUnit s1 ∧ (∀ k s'', y = Panic k s'' → k = PkUser) ∧
        sprims s1 s2 ∧ stack s2 = [] ∧ (s' = s2 ∨ ∃ v, sets_state s2 o v s' ∧ adds [] s2 s' ∧ Inv s' ∧ stack s' = [])
  | OInvalidate _ | OPurge _ | OClearAll => y = step E n x s ∨ (y = Panic PkUser s' ∧ step E n x s = Done OutUnit s')
  | OGc => y = gc_t E (w_others W) s
  | _ => y = step E n x s
  end.

Lemma call_storms n x s s' :
  Inv s → stack s = [] → ends (call_s W E n x s) s' → storms n x s (call_s W E n x s) s'.
Proof.
  intros I Hst He.
  destruct x as [d|o|h o|o f|h o|o f|o|o f|o|o|o| | | |o| ]; cbn [call_s storms] in *; try reflexivity.
  - destruct (get_s_ok E W (build_s W E n) h o s (build_s_ok E W n) I) as [(G1 & G2 & G3) _].
    destruct (get_s W E (build_s W E n) h o s) as [r s1|k s1| |] eqn:Hg.
    + destruct He as [[? [= <- <-]]|[? ?]]; [|done]. split_and!; [apply G1; left; eauto|done|]. intros ? ? _. rewrite (G3 _ _ eq_refl). done.
    + destruct He as [[? ?]|[? [= <- <-]]]; [done|]. split_and!; [apply G1; right; eauto| |done]. intros ? ? [= <- <-]. by eapply G2.
    + by destruct He as [[? ?]|[? ?]].
    + by destruct He as [[? ?]|[? ?]].
  - unfold get_mut_s in *. cbn [step]. unfold op_lookup_mut, op_get_mut in *.
    destruct (e_kind E) eqn:Hkd; [by left|]. destruct (promise o s) as [[d a]|] eqn:Hp; [|by left].
    destruct (lookup_mut_ok (e_dbg E) (prio E s) o s d a I Hp) as [L1 L2].
    destruct (other_dependent_dec (ch s) a) as [Hod|Hself].
    { left. by destruct (L1 Hod) as [c ->]. }
    destruct (L2 Hself) as (c & Hr & Ic & Hk & Hl). rewrite Hl in *.
    destruct (artifacts c !! a) as [e|] eqn:Hea; [by left|]. right.
    set (s1 := tock (set_ch c s)) in *. exists s1. split; [done|].
    assert (Inv s1) as I1.
    { apply Inv_tock, Inv_set_ch; [done..|]. intros x y. rewrite Hk. right; eauto. }
    destruct (build_s_ok E W n o s1 d a Hp Hea I1) as (B1 & B2 & B3).
    destruct (build_s W E n o s1) as [[e|e] s2|k s2| |] eqn:Hb.
    + destruct (B3 _ _ eq_refl) as (Hst2 & Hal2 & Ha2 & Hty & sx & P1 & Hsx & P2 & Htx).
      rewrite Hty, N.eqb_refl in *. destruct He as [[? [= <- <-]]|[? ?]]; [|done]. split; [done|]. right.
      assert (Inv s2) as I2 by (exact (prim_Inv E _ _ P2 (sprims_Inv E _ _ P1 I1))).
      assert (stack s2 = []) as Hst2' by (rewrite Hst2; exact Hst).
      exists sx, s2, (ar_bin e). split_and!; try done.
      * rewrite Hsx. f_equal. exact Hst.
      * refine (write_effect s2 o d a f I2 _). apply promise_Some. split; [done|].
        apply promise_Some in Hp as [_ Ho]. destruct (B1 s2) as [P3 _]; [left; eauto|]. exact (sprims_objs E s1 s2 o _ I1 P3 Ho).
      * destruct I2. split; try done; try (by apply CInv_write_art).
    + destruct He as [[? [= <- <-]]|[? ?]]; [|done]. split; [done|]. left. destruct (B1 s2) as [P1 _]; [left; eauto|]. split; [done|].
      intros _ _ _. destruct (B3 _ _ eq_refl) as (-> & _). done.
    + destruct He as [[? ?]|[? [= <- <-]]]; [done|]. split; [intros ? ? [= <- <-]; by eapply B2|]. left. split; [|done]. apply B1. right; eauto.
    + by destruct He as [[? ?]|[? ?]].
    + by destruct He as [[? ?]|[? ?]].
  - destruct (promise o s) as [[d a]|] eqn:Hp; [|by destruct He as [[? ?]|[? ?]]].
    destruct (ensure_s E o s d a (w_init W (tick s) o d) I Hp) as (c2 & r & Hen & P & _ & _ & Hr). rewrite Hen in *.
    destruct r as [k|v].
    + destruct He as [[? ?]|[? [= <- <-]]]; [done|]. split_and!; [done| |done]. intros ? ? [= <- <-]. apply Hr.
    + destruct He as [[? [= <- <-]]|[? ?]]; [|done]. split_and!; [done..|]. done.
  - destruct (promise o s) as [[d a]|] eqn:Hp; [|by destruct He as [[? ?]|[? ?]]].
    assert (live s o) as Hlv by (by eapply promise_live).
    destruct (invalidate_exact E s n o I Hlv) as (s1 & Hs1 & _). pose proof Hs1 as Hs1'.
    cbn [step] in *. rewrite Hp in *. destruct (invalidate_by_id _ _ _ _) as [c|k c|] eqn:Hinv; cbn [lift] in *; try done.
    injection Hs1 as <-. set (s1 := log (EInvalidate o) (tock (set_ch c s))) in *.
    assert (Inv s1 ∧ stack s1 = []) as [I1 Hst1].
    { refine (step_Inv E n (OInvalidate o) s OutUnit s1 I Hst _). cbn [step]. rewrite Hp, Hinv. done. }
    cbv zeta in *. destruct (w_doctor W (trace s1)).
    { destruct He as [[? ?]|[? [= <- <-]]]; [done|]. exists s1, s1. split_and!; [done|by intros ? ? [= <- <-]|done..|by left]. }
    destruct (ensure_s E o s1 d a (w_init W (tick s1) o d) I1 Hp) as (c2 & r & Hen & P & _ & Hk2 & Hr). rewrite Hen in *.
    exists s1, (set_ch c2 s1). split; [done|]. destruct r as [k|v].
    + destruct He as [[? ?]|[? [= <- <-]]]; [done|]. split_and!; [|done..|by left]. intros ? ? [= <- <-]. apply Hr.
    + destruct He as [[? [= <- <-]]|[? ?]]; [|done]. split_and!; [done..|]. right. exists (Some (f v)).
      assert (Inv (set_ch c2 s1)) as I2 by (by eapply sprims_Inv).
      split; [exact (set_dyn_effect (set_ch c2 s1) o d a (bd_sty d) (f v) I2 Hp Hk2)|]. split; [done|]. split; [|done].
      apply promise_Some in Hp as [Hal Ho]. destruct I2. split; try done.
      * by eapply CInv_dyn.
      * intros o' Ho'. cbn in Ho'. rewrite Hst in Ho'. by apply elem_of_nil in Ho'.
  - unfold ends_told in *. cbn [step] in *. destruct (promise o s) as [[d a]|] eqn:Hp; [|by left].
    destruct (invalidate_by_id _ _ _ _) as [c|k c|]; cbn [lift] in *; [|by left..].
    destruct (jinx _ _ _); [|by left]. destruct He as [[? ?]|[? [= <- <-]]]; [done|]. by right.
  - unfold ends_told in *. cbn [step] in *. destruct (promise o s) as [[d a]|] eqn:Hp; [|by left].
    destruct (purge _ _ _ _) as [c|k c|]; cbn [lift] in *; [|by left..].
    destruct (jinx _ _ _); [|by left]. destruct He as [[? ?]|[? [= <- <-]]]; [done|]. by right.
  - unfold ends_told in *. cbn [step] in *.
    destruct (jinx _ _ _); [|by left]. destruct He as [[? ?]|[? [= <- <-]]]; [done|]. by right.
Qed.

(** [ensure_dyn_state], seen from outside: whatever [init] is. *)
Lemma know_sets s o d a :
  Inv s → promise o s = Some (d, a) → sets_state s o (state_of s o) (set_ch (make_known a o (ch s)) s).
Proof.
  intros I Hp. destruct (shows_ex s) as [A H]. pose proof (shows_meet s A o d a I H Hp) as H'.
  split; try done.
  - by rewrite <- (sh_state _ _ H'), <- (sh_state _ _ H).
  - intros w _. by rewrite <- (sh_state _ _ H'), <- (sh_state _ _ H).
  - intros w. rewrite <- (sh_known _ _ H'), <- (sh_known _ _ H). cbn. set_solver.
  - intros w. by rewrite <- (sh_art _ _ H'), <- (sh_art _ _ H).
  - intros u w. by rewrite <- (sh_deps _ _ H'), <- (sh_deps _ _ H).
Qed.
Lemma ensure_s_sets o s d a init c r :
  Inv s → promise o s = Some (d, a) → ensure_dyn_state a o (bd_sty d) init (ch s) = (c, r) →
  match state_of s o with
  | Some v => r = inr v ∧ sets_state s o (Some v) (set_ch c s)
  | None => match init with
            | Some v => r = inr v ∧ sets_state s o (Some v) (set_ch c s)
            | None => r = inl PkUser ∧ sets_state s o None (set_ch c s)
            end
  end.
Proof.
  intros I Hp. unfold ensure_dyn_state.
  assert (prim s (set_ch (make_known a o (ch s)) s)) as Hk by (eapply pm_know; eauto).
  pose proof (prim_Inv E _ _ Hk I) as I1. pose proof (make_known_known a o (ch s)) as [o' Hkn].
  assert (o' = o) as -> by (exact (Inv_known_is (set_ch (make_known a o (ch s)) s) o d a o' I1 Hp Hkn)).
  destruct (make_known_fields a o (ch s)) as (Ha & Hs & _). apply promise_Some in Hp as Hp'. destruct Hp' as [_ Ho].
  pose proof (know_sets s o d a I Hp) as K. rewrite (live_state s o d a I Hp) in *.
  destruct (dyn_states (make_known a o (ch s)) !! a) as [v|] eqn:Hv.
  - rewrite (ci_dyn_ty _ _ (i_c _ I1) a v o d Hv Hkn Ho), N.eqb_refl. rewrite Hs in Hv. rewrite Hv in *. intros [= <- <-]. done.
  - rewrite Hs in Hv. rewrite Hv in *. destruct init as [v|]; intros [= <- <-]; [|done]. split; [done|].
    eapply sets_state_trans; [exact K|]. exact (set_dyn_effect (set_ch (make_known a o (ch s)) s) o d a (bd_sty d) v I1 Hp Hkn).
Qed.

(** ** The states they end in *)
Lemma good_writes s1 sx s2 s' o f b :
  e_kind E = Boxed → good s1 → sprims s1 sx → stack sx = [o] → prim sx s2 → trace s2 = EBuilt o b :: trace sx →
  stack s2 = [] → writes s2 o f s' → adds [] s2 s' → Inv s' → stack s' = [] → good s'.
Proof.
  intros Hkd Hg P1 Hstx P2 Htx Hst2 Hw Ha I' Hst'. destruct Hg as (I1 & Hst1 & Hb1 & Hc1).
  assert (sprims s1 s2) as P12 by (eapply rtc_r; [exact P1|by apply sp_prim]).
  destruct (good_sprims_done s1 s2) as (I2 & _ & Hb2 & Hc2); [by split_and!|done|done|].
  split_and!; [done..|exact (writes_all_built E s2 o f s' Hkd Hw Ha Hb2)|].
  intros Hre. assert (reent s2 = false) as Hre2 by (destruct Ha as [_ Ha]; congruence).
  rewrite <- (unwound_id s' Hst').
  eapply writes_coh; [done..| |by apply Hc2]. intros u rv l1 l2 Hu Heq Hs.
  assert (reent sx = false) as Hrx by (by eapply prim_reent).
  assert (Inv sx) as Ix by (by eapply sprims_Inv).
  assert (reent s1 = false) as Hr1 by (by eapply sprims_reent).
  assert (nr sx) as Hnx by (eapply sprims_nr; [exact I1|exact P1|by apply nr_empty]).
  assert (coh sx) as Hcx by exact (sprims_coh E s1 sx I1 (nr_empty s1 Hst1) P1 Hrx (Hc1 Hr1)).
  destruct (Hnx Hrx) as [_ Hnone].
  assert (is_Some (cached sx u) ∨ u ∈ stack sx) as Hux.
  { destruct Hu as [bu Hu]. destruct (prim_cached_new E sx s2 u bu Ix P2 Hu) as [?|[_ ?]]; [left; eauto|by right]. }
  rewrite Htx in Heq. destruct l1 as [|y l1]; [done|]. injection Heq as <- Heq. apply since_cons in Hs as [Hs _].
  destruct (Hcx u o rv l1 l2 Hux Heq Hs) as [_ [?|(h & b' & Hb' & _)]]; [done|].
  rewrite Hnone in Hb'; [done|]. rewrite Hstx. left.
Qed.
Lemma good_sets s2 s' o v :
  good s2 → sets_state s2 o v s' → adds [] s2 s' → Inv s' → stack s' = [] → good s'.
Proof.
  intros (I2 & Hst2 & Hb2 & Hc2) Hs Ha I' Hst'. split_and!; [done..| |].
  - eapply sets_all_built; [done|apply Ha|done|done].
  - intros Hre. rewrite <- (unwound_id s' Hst'). eapply sets_coh; [done|apply Ha|set_solver|]. apply Hc2. destruct Ha as [_ Ha]. congruence.
Qed.
End StormStep.

(** ** Garbage collection *)
Section StormGc.
Context (E : env) (T : nat → list act).

Lemma performs_reent B l : ∀ s s', performs E B l s = Some s' → reent s' = reent s.
Proof.
  induction l as [|x l IH]; intros s s'; cbn [performs]; [by intros [= <-]|].
  destruct (perform E B x s) as [s1|] eqn:Hp; [|done]. intros Hs. rewrite (IH _ _ Hs). clear Hs.
  destruct x as [d|w| |]; cbn [perform] in Hp.
  - destruct (alloc E d s) as [[o s2]|] eqn:Ha; [|done]. injection Hp as <-. apply alloc_Some in Ha as (_ & -> & _). done.
  - destruct (bool_decide _); [done|]. destruct (drop_obj w s) as [s2|] eqn:Ha; [|done]. injection Hp as <-.
    apply drop_Some in Ha as (_ & _ & ->). done.
  - by injection Hp as <-.
  - by injection Hp as <-.
Qed.
Lemma gc_scan_reent ls : ∀ s l s', gc_scan E T ls s = Done l s' → reent s' = reent s.
Proof.
  induction ls as [|a ls IH]; intros s l s'; cbn [gc_scan]; [by intros [= _ <-]|]. unfold meanwhile.
  destruct (performs E [] _ s) as [s1|] eqn:Hp; [|done]. rewrite <- (performs_reent _ _ _ _ Hp).
  destruct (known (ch s1) !! a); [|done]. destruct (gc_scan E T ls s1) as [l1 s2|? ?| |] eqn:Hg; try done. intros [= _ <-]. by eapply IH.
Qed.
Lemma gc_reap_reent pr l : ∀ i s r s', gc_reap E T pr i l s = Done r s' → reent s' = reent s.
Proof.
  induction l as [|a l IH]; intros i s r s'; cbn [gc_reap]; [by intros [= _ <-]|]. unfold meanwhile.
  destruct (performs E [] _ s) as [s1|] eqn:Hp; [|done]. rewrite <- (performs_reent _ _ _ _ Hp).
  destruct (invalidate_by_id _ _ _ _) as [c| |]; [|done..]. intros H. apply IH in H. done.
Qed.
Lemma gc_t_reent s r s' : gc_t E T s = Done r s' → reent s' = reent s.
Proof.
  unfold gc_t. destruct (_ && _); [done|]. destruct (gc_scan _ _ _ _) as [l s1|? ?| |] eqn:H1; try done.
  destruct (gc_reap _ _ _ _ _ _) as [r' s2|? ?| |] eqn:H2; try done. intros [= _ <-]. cbn.
  rewrite (gc_reap_reent _ _ _ _ _ _ H2). by eapply gc_scan_reent.
Qed.

(** What is removed was known, is unreachable now and nothing depends on it;
    and what was like that at the start is removed. *)
Lemma gc_t_effect s r s' :
  Inv s → stack s = [] → gc_t E T s = Done r s' →
  Inv s' ∧ stack s' = [] ∧ r = OutUnit ∧ ∃ F : obj → Prop,
    (∀ w, F w → knows s w ∧ ¬ live s' w ∧ ∀ u, ¬ depends s u w) ∧
    (∀ w, knows s w → ¬ live s w → (∀ u, ¬ depends s u w) → F w) ∧
    (∀ w, F w → cached s' w = None ∧ state_of s' w = None ∧ ¬ knows s' w) ∧
    (∀ w, ¬ F w → cached s' w = cached s w ∧ state_of s' w = state_of s w ∧ (knows s' w ↔ knows s w)) ∧
    (∀ u w, depends s' u w ↔ depends s u w ∧ ¬ F u ∧ ¬ F w) ∧ trace s' = trace s.
Proof.
  intros I Hst Hs. destruct (shows_ex s) as [A H].
  destruct (gc_t_sound E T s A I Hst H) as [G _]. destruct (G _ _ Hs) as (I' & Hst' & -> & _ & A1 & F & A2 & R1 & [F1 F2] & R2 & H').
  do 3 (split; [done|]). exists (λ w, w ∈ F).
  pose proof (others_stays _ _ _ _ R1) as [E1 E2 E3 E4 E5]. pose proof (others_stays _ _ _ _ R2) as [D1 D2 D3 D4 D5].
  cbn [r_unknow r_forget r_art r_state r_known r_deps r_log] in *.
  assert (∀ w, cached s' w = if decide (w ∈ F) then None else cached s w) as Hcw.
  { intros w. rewrite <- (sh_art _ _ H'), <- (sh_art _ _ H). cbn. rewrite D1, E1. destruct (decide (w ∈ F)) as [Hw|Hw].
    - apply map_filter_lookup_None. right. intros x _ Hn. by apply Hn.
    - destruct (r_art A !! w) as [x|] eqn:Hx; [by apply map_filter_lookup_Some|]. apply map_filter_lookup_None. by left. }
  assert (∀ w, state_of s' w = if decide (w ∈ F) then None else state_of s w) as Hsw.
  { intros w. rewrite <- (sh_state _ _ H'), <- (sh_state _ _ H). cbn. rewrite D2, E2. destruct (decide (w ∈ F)) as [Hw|Hw].
    - apply map_filter_lookup_None. right. intros x _ Hn. by apply Hn.
    - destruct (r_state A !! w) as [x|] eqn:Hx; [by apply map_filter_lookup_Some|]. apply map_filter_lookup_None. by left. }
  assert (∀ w, knows s' w ↔ knows s w ∧ w ∉ F) as Hkw.
  { intros w. rewrite <- (sh_known _ _ H'), <- (sh_known _ _ H). cbn. rewrite D3, E3. set_solver. }
  split_and!.
  - intros w Hw. destruct (F1 w Hw) as (X1 & X2 & X3). split_and!.
    + apply (sh_known _ _ H). by rewrite <- E3.
    + intros Hl. unfold live in Hl. rewrite <- (sh_live _ _ H') in Hl. cbn in Hl. revert Hl. apply (others_nobj _ _ _ _ w R2); [|done]. cbn.
      assert (w < r_nobj A)%N as Hlt.
      { rewrite (sh_nobj _ _ H). rewrite E3 in X1. apply (sh_known _ _ H) in X1 as (d & a & Ho & _). exact (i_num _ I w _ Ho). }
      by apply (others_nobj _ _ _ _ w R1).
    + intros u Hd. apply (X3 u). rewrite E4. by apply (sh_deps _ _ H).
  - intros w Hk Hl Hd. apply F2; [by apply (sh_known _ _ H)|intros X; apply Hl; unfold live; by rewrite <- (sh_live _ _ H)|intros u X; by apply (Hd u), (sh_deps _ _ H)].
  - intros w Hw. rewrite Hcw, Hsw, Hkw. destruct (decide (w ∈ F)); [|done]. naive_solver.
  - intros w Hw. rewrite Hcw, Hsw, Hkw. destruct (decide (w ∈ F)); [done|]. naive_solver.
  - intros u w. rewrite <- (sh_deps _ _ H'), <- (sh_deps _ _ H). cbn. rewrite D4, E4, elem_of_filter. cbn. tauto.
  - rewrite <- (sh_log _ _ H'), <- (sh_log _ _ H). cbn. by rewrite D5, E5.
Qed.
Lemma gc_t_panic s k s' :
  Inv s → stack s = [] → gc_t E T s = Panic k s' → k = PkGcIndex ∧ rtc (prim E) s s'.
Proof.
  intros I Hst Hs. destruct (shows_ex s) as [A H].
  destruct (gc_t_sound E T s A I Hst H) as [_ G]. destruct (G _ _ Hs) as (_ & -> & _). split; [done|].
  revert Hs. unfold gc_t. rewrite (gc_check_ok _ _ (i_c _ I)), andb_false_r.
  destruct (gc_scan _ _ _ s) as [l s1|k s1| |] eqn:Hsc; try done.
  - destruct (gc_scan_ok E T _ s A I Hst H (NoDup_iter_order (prio E s 0 0) (leafs (ch s)))) as [X1 X2]. intros Hr. exfalso.
    set (ls := iter_order (prio E s 0 0) (leafs (ch s))) in *.
    destruct (gc_reap E T (prio E s) 1 l s1) as [r s2|k s2| |] eqn:Hrp; try done. injection Hr as -> <-.
    destruct (G PkGcIndex (tock s2)) as (_ & _ & Hne & _).
    { unfold gc_t. rewrite (gc_check_ok _ _ (i_c _ I)), andb_false_r. fold ls. rewrite Hsc, Hrp. done. }
    destruct (X1 _ _ Hsc) as (T1 & _ & Y1 & _). apply Hne. rewrite (stray_sub s A H).
    intros a Ha. apply elem_of_dom, Y1. by apply elem_iter_order.
  - destruct (gc_scan_ok E T _ s A I Hst H (NoDup_iter_order (prio E s 0 0) (leafs (ch s)))) as [_ X2]. intros [= -> <-].
    destruct (X2 _ _ Hsc) as (_ & T1 & _). eapply rtc_r; [apply T1|]. apply pm_tick.
Qed.
Lemma good_gc s r s' : good E s → gc_t E T s = Done r s' → good E s'.
Proof.
  intros (I & Hst & Hb & Hc) Hs. destruct (gc_t_effect s r s' I Hst Hs) as (I' & Hst' & _ & F & F1 & _ & F3 & F4 & F5 & Ht).
  assert (∀ w, is_Some (cached s' w) → ¬ F w) as HnF.
  { intros w [b Hw] HFw. destruct (F3 w HFw) as [Hn _]. congruence. }
  split_and!; [done..| |].
  - intros o b Ho. assert (¬ F o) as HnFo by (apply HnF; eauto).
    apply (from_build_app E s s' []); [done|done..|]. apply Hb. by rewrite <- (proj1 (F4 o HnFo)).
  - intros Hre. rewrite (gc_t_reent _ _ _ Hs) in Hre. specialize (Hc Hre).
    apply (coh_mono s s' []); [done|done|..].
    + intros u [Hu|Hu] _; [|rewrite Hst' in Hu; by apply elem_of_nil in Hu]. left.
      by rewrite <- (proj1 (F4 u (HnF u Hu))).
    + intros u w Hd [Hu|Hu]; [|rewrite Hst' in Hu; by apply elem_of_nil in Hu].
      apply F5. split_and!; [done|by apply HnF|]. intros (_ & _ & Hn)%F1. by eapply Hn.
    + intros u w b Hd _ Hw. assert (¬ F w) as HnFw by (intros (_ & _ & Hn)%F1; by eapply Hn). by rewrite (proj1 (F4 w HnFw)).
    + intros u w rv l1 l2 Hl. by destruct l1.
Qed.
End StormGc.

(** ** Histories *)
Section Stormy.
Context (E : env).

Lemma step_s_turn W n x s y :
  Inv s → stack s = [] → step_s W E n x s = y → y ≠ Illegal →
  ∃ s1, turned E (borrows x) s s1 ∧ Inv s1 ∧ stack s1 = [] ∧ call_s W E n x s1 = y.
Proof.
  intros I Hst Hs Hy. unfold step_s, meanwhile in Hs. destruct (performs _ _ _ s) as [s1|] eqn:Hp; [|congruence].
  pose proof (performs_turned _ _ _ _ _ I Hp) as T1. exists s1. split_and!; [done| |by rewrite (tu_stack _ _ _ _ T1)|done].
  exact (prims_Inv E _ _ (tu_prims _ _ _ _ T1) I).
Qed.

Lemma good_call W n x s :
  good E s → (∀ r s', call_s W E n x s = Done r s' → good E s') ∧
  (∀ k s', call_s W E n x s = Panic k s' → resumable k = true → good E (unwound s')).
Proof.
  intros Hg. pose proof Hg as (I & Hst & _).
  assert (∀ y, y = step E n x s → (∀ r s', y = Done r s' → good E s') ∧ (∀ k s', y = Panic k s' → resumable k = true → good E (unwound s'))) as Hstep.
  { intros y ->. split; [intros r s'; by apply good_done|intros k s'; by apply good_panic]. }
  assert (∀ s', ends (call_s W E n x s) s' → storms W E n x s (call_s W E n x s) s') as Hx by (intros s'; by apply call_storms).
  destruct x as [d|o|h o|o f|h o|o f|o|o f|o|o|o| | | |o| ]; cbn [storms] in Hx; try (exact (Hstep _ eq_refl)); clear Hstep.
  - split.
    + intros r s' Hs. destruct (Hx s') as (P & _ & H); [left; eauto|]. eapply good_sprims_done; [done..|by eapply H].
    + intros k s' Hs Hk. destruct (Hx s') as (P & _ & H); [right; eauto|]. by eapply good_sprims.
  - assert (∀ s', ends (call_s W E n (OGetMut o f) s) s' →
      call_s W E n (OGetMut o f) s = step E n (OGetMut o f) s ∨
      ((∀ r s'', call_s W E n (OGetMut o f) s = Done r s'' → stack s' = []) ∧ good E (unwound s'))) as Hy.
    { intros s' He. destruct (Hx s' He) as [?|(s1 & Hs1 & Hk & Hor)]; [by left|right].
      assert (good E s1) as Hg1 by (by eapply good_done).
      destruct Hor as [[P H]|(sx & s2 & b & P1 & X1 & P2 & X2 & X3 & X4 & X5 & X6 & X7)].
      - split; [done|]. by eapply good_sprims.
      - split; [done|]. rewrite (unwound_id s' X7). eapply good_writes; try done.
        revert Hs1. cbn [step]. unfold op_lookup_mut. by destruct (e_kind E). }
    split.
    + intros r s' Hs. destruct (Hy s') as [He|[H1 H2]]; [left; eauto|rewrite Hs in He; by eapply good_done|].
      rewrite <- (unwound_id s' (H1 _ _ Hs)). done.
    + intros k s' Hs Hk. destruct (Hy s') as [He|[H1 H2]]; [right; eauto|rewrite Hs in He; by eapply good_panic|done].
  - split.
    + intros r s' Hs. destruct (Hx s') as (P & _ & H); [left; eauto|]. eapply good_sprims_done; [done..|by eapply H].
    + intros k s' Hs Hk. destruct (Hx s') as (P & _ & H); [right; eauto|]. by eapply good_sprims.
  - assert (∀ s', ends (call_s W E n (ODynStateMut o f) s) s' → stack s' = [] ∧ good E s') as Hy.
    { intros s' He. destruct (Hx s' He) as (s1 & s2 & Hs1 & Hk & P & Hst2 & Hor).
      assert (good E s2) as Hg2 by (eapply good_sprims_done; [by eapply good_done|done..]).
      destruct Hor as [->|(v & X1 & X2 & X3 & X4)]; [done|]. split; [done|]. by eapply good_sets. }
    split.
    + intros r s' Hs. apply Hy. left; eauto.
    + intros k s' Hs _. destruct (Hy s') as [H1 H2]; [right; eauto|]. by rewrite (unwound_id s' H1).
  - split.
    + intros r s' Hs. destruct (Hx s') as [He|[He _]]; [left; eauto|rewrite Hs in He; by eapply good_done|congruence].
    + intros k s' Hs Hk. destruct (Hx s') as [He|[_ He]]; [right; eauto|rewrite Hs in He; by eapply good_panic|].
      assert (good E s') as Hg' by (by eapply good_done). rewrite (unwound_id s'); [done|apply Hg'].
  - split.
    + intros r s' Hs. destruct (Hx s') as [He|[He _]]; [left; eauto|rewrite Hs in He; by eapply good_done|congruence].
    + intros k s' Hs Hk. destruct (Hx s') as [He|[_ He]]; [right; eauto|rewrite Hs in He; by eapply good_panic|].
      assert (good E s') as Hg' by (by eapply good_done). rewrite (unwound_id s'); [done|apply Hg'].
  - split.
    + intros r s' Hs. destruct (Hx s') as [He|[He _]]; [left; eauto|rewrite Hs in He; by eapply good_done|congruence].
    + intros k s' Hs Hk. destruct (Hx s') as [He|[_ He]]; [right; eauto|rewrite Hs in He; by eapply good_panic|].
      assert (good E s') as Hg' by (by eapply good_done). rewrite (unwound_id s'); [done|apply Hg'].
  - split.
    + intros r s' Hs. by eapply (good_gc E (w_others W)).
    + intros k s' Hs _. destruct (gc_t_panic E _ s k s' I Hst Hs) as [_ P]. eapply good_sprims; [done|]. by apply prims_sprims.
Qed.

Lemma stormy_good s : stormy E s → good E s.
Proof.
  induction 1 as [|s W n x r s' _ Hg Hs|s W n x k s' _ Hg Hs Hk|s da dd n s' _ Hg Hs].
  - apply (sturdy_Inv E). constructor.
  - pose proof Hg as (I & Hst & _). destruct (step_s_turn W n x s _ I Hst Hs) as (s1 & T1 & I1 & Hst1 & Hc); [done|].
    pose proof (good_turned E _ _ _ Hg T1) as Hg1. by eapply good_call.
  - pose proof Hg as (I & Hst & _). destruct (step_s_turn W n x s _ I Hst Hs) as (s1 & T1 & I1 & Hst1 & Hc); [done|].
    pose proof (good_turned E _ _ _ Hg T1) as Hg1. by eapply good_call.
  - destruct Hg as (I & Hst & Hb & Hc). exact (gc_broken_keeps E da dd s n s' I Hst Hb Hc Hs).
Qed.
End Stormy.
