(** Consequences of the refinement: the observable state is all there is; laws. *)
From Verif Require Export RefCalls.
From stdpp Require Import relations.

(** ** Time and log do not matter *)
Definition retime (t : nat) (l : list event) (A : ref) : ref :=
  Ref (r_art A) (r_state A) (r_known A) (r_deps A) (r_stray A) (r_who A) (r_live A) (r_nobj A) (r_nbin A) t l.

Definition like (ask ask' : nat → N) (A A' : ref) : Prop :=
  ∃ t l, A' = retime t l A ∧ ∀ i, ask (r_tick A + i) = ask' (t + i).

Section Like.
Context (ask ask' : nat → N) (kd : kind).
Notation like := (like ask ask').

Lemma like_same t l A : (∀ i, ask (r_tick A + i) = ask' (t + i)) → like A (retime t l A).
Proof. intros H. by exists t, l. Qed.
Lemma like_now A A' : like A A' → ask (r_tick A) = ask' (r_tick A').
Proof. intros (t & l & -> & H). specialize (H 0). by rewrite !Nat.add_0_r in H. Qed.
Ltac lk := let t := fresh in let l := fresh in let H := fresh in
  intros (t & l & -> & H); first [by exists t, l|eexists t, _; split; [reflexivity|exact H]].
Lemma like_meet o A A' : like A A' → like (r_meet o A) (r_meet o A'). Proof. lk. Qed.
Lemma like_use u w A A' : like A A' → like (r_use u w A) (r_use u w A'). Proof. lk. Qed.
Lemma like_put o v A A' : like A A' → like (r_put o v A) (r_put o v A'). Proof. lk. Qed.
Lemma like_store o b A A' : like A A' → like (r_store o b A) (r_store o b A'). Proof. lk. Qed.
Lemma like_write o f A A' : like A A' → like (r_write o f A) (r_write o f A'). Proof. lk. Qed.
Lemma like_forget F A A' : like A A' → like (r_forget F A) (r_forget F A'). Proof. lk. Qed.
Lemma like_unknow F A A' : like A A' → like (r_unknow F A) (r_unknow F A'). Proof. lk. Qed.
Lemma like_spoil o A A' : like A A' → like (r_spoil o A) (r_spoil o A'). Proof. lk. Qed.
Lemma like_note e A A' : like A A' → like (r_note e A) (r_note e A'). Proof. lk. Qed.
Lemma like_newbin A A' : like A A' → like (r_newbin A) (r_newbin A'). Proof. lk. Qed.
Lemma like_drop o A A' : like A A' → like (r_drop o A) (r_drop o A'). Proof. lk. Qed.
Lemma like_prepare o A A' : like A A' → like (r_prepare o A) (r_prepare o A').
Proof. intros H. assert (r_deps A' = r_deps A) as Hd by (by destruct H as (t & l & -> & _)). unfold r_prepare. rewrite Hd. destruct (decide _); [by apply like_forget|done]. Qed.
Lemma like_tock A A' : like A A' → like (r_tock A) (r_tock A').
Proof. intros (t & l & -> & H). exists (S t), l. split; [done|]. intros i. cbn. specialize (H (S i)). by rewrite !Nat.add_succ_r in H. Qed.
Lemma like_alloc d a A A' : like A A' → like (r_alloc d a A) (r_alloc d a A').
Proof. intros (t & l & -> & H). exists (S t), l. split; [done|]. intros i. cbn. specialize (H (S i)). by rewrite !Nat.add_succ_r in H. Qed.

Lemma like_fields A A' : like A A' →
  r_art A' = r_art A ∧ r_state A' = r_state A ∧ r_known A' = r_known A ∧ r_deps A' = r_deps A ∧ r_stray A' = r_stray A ∧
  r_who A' = r_who A ∧ r_live A' = r_live A ∧ r_nobj A' = r_nobj A ∧ r_nbin A' = r_nbin A.
Proof. by intros (t & l & -> & _). Qed.
End Like.

Create HintDb like.
Global Hint Resolve like_meet like_use like_put like_store like_write like_forget like_unknow like_spoil like_note like_newbin
  like_drop like_prepare like_tock like_alloc : like.

Section Sim.
Context (ask ask' : nat → N) (kd : kind).
Notation like := (like ask ask').

Definition sim {X} (R : ref → X → ref → Prop) (A : ref) (x : X) (A1 : ref) : Prop :=
  ∀ A', like A A' → ∃ A1', R A' x A1' ∧ like A1 A1'.

Ltac fields H := let a := fresh "Fa" in let b := fresh "Fs" in let c := fresh "Fk" in let d := fresh "Fd" in
  let e := fresh "Fst" in let f := fresh "Fw" in let g := fresh "Fl" in let h := fresh "Fo" in let i := fresh "Fb" in
  pose proof (like_fields _ _ _ _ H) as (a & b & c & d & e & f & g & h & i).

Ltac fin := repeat match goal with H : _ ?A' = _ ?A |- context [_ ?A'] => rewrite H end; done.

Lemma sim_build :
  (∀ B h o A x A1, rget ask kd B h o A x A1 → sim (rget ask' kd B h o) A x A1) ∧
  (∀ B o A x A1, rbuild ask kd B o A x A1 → sim (rbuild ask' kd B o) A x A1) ∧
  (∀ B u p A x A1, rrun ask kd B u p A x A1 → sim (rrun ask' kd B u p) A x A1).
Proof.
  apply ref_min; unfold sim.
  - intros B h o A b Hl Hh Hb A' H. fields H. exists A'. split; [|done]. apply rget_hit; fin.
  - intros B h o A b A1 Hl Hh Hb Hr IH A' H. fields H. destruct (IH A' H) as (A1' & Hr' & H1). exists A1'. split; [|done]. eapply rget_built; [fin..|exact Hr'].
  - intros B h o A e A1 Hl Hh Hb Hr IH A' H. fields H. destruct (IH A' H) as (A1' & Hr' & H1). exists A1'. split; [|done]. eapply rget_failed; [fin..|exact Hr'].
  - intros B h o A A1 Hl Hh Hb Hr IH A' H. fields H. destruct (IH A' H) as (A1' & Hr' & H1). exists A1'. split; [|done]. eapply rget_panicked; [fin..|exact Hr'].
  - intros B o A d Hd Hs Hi A' H. fields H. exists (r_meet o A'). split; [|by apply like_meet]. eapply rbuild_noinit; [unfold r_def in *; rewrite Fw; exact Hd|fin|done].
  - intros B o A d v b A1 Hd Hv Hr IH A' H. fields H.
    destruct (IH (r_note (ECall o) (r_put o v (r_meet o A')))) as (A1' & Hr' & H1); [auto with like|].
    eexists. split; [eapply rbuild_ok; [unfold r_def in *; rewrite Fw; exact Hd|rewrite Fs; exact Hv|exact Hr']|auto with like].
  - intros B o A d v e A1 Hd Hv Hr IH A' H. fields H.
    destruct (IH (r_note (ECall o) (r_put o v (r_meet o A')))) as (A1' & Hr' & H1); [auto with like|].
    eexists. split; [eapply rbuild_err; [unfold r_def in *; rewrite Fw; exact Hd|rewrite Fs; exact Hv|exact Hr']|auto with like].
  - intros B o A d v A1 Hd Hv Hr IH A' H. fields H.
    destruct (IH (r_note (ECall o) (r_put o v (r_meet o A')))) as (A1' & Hr' & H1); [auto with like|].
    eexists. split; [eapply rbuild_panic; [unfold r_def in *; rewrite Fw; exact Hd|rewrite Fs; exact Hv|exact Hr']|auto with like].
  - intros B u r A A' H. exists A'. split; [constructor|done].
  - intros B u A A' H. exists A'. split; [constructor|done].
  - intros B u h w k A r A1 x A2 Hg IH1 Hr IH2 A' H.
    destruct (IH1 (r_note (EResolve u w) (r_use u w (r_meet w A')))) as (A1' & Hg' & H1); [auto with like|].
    destruct (IH2 (r_note (EGot u w r) A1')) as (A2' & Hr' & H2); [auto with like|].
    exists A2'. split; [by eapply rrun_resolve|done].
  - intros B u h w k A A1 Hg IH1 A' H.
    destruct (IH1 (r_note (EResolve u w) (r_use u w (r_meet w A')))) as (A1' & Hg' & H1); [auto with like|].
    exists A1'. split; [by eapply rrun_resolve_panic|done].
  - intros B u k A v x A1 Hv Hr IH A' H. fields H. destruct (IH A' H) as (A1' & Hr' & H1). exists A1'. split; [|done]. eapply rrun_state; [fin|done].
  - intros B u v p A x A1 Hr IH A' H. destruct (IH (r_put u v A')) as (A1' & Hr' & H1); [auto with like|]. exists A1'. split; [by apply rrun_set|done].
  - intros B u k A x A1 Hr IH A' H. destruct (IH (r_tock A')) as (A1' & Hr' & H1); [auto with like|]. exists A1'. split; [|done].
    apply rrun_ask. by rewrite <- (like_now _ _ _ _ H).
  - intros B u v k A x A1 Hr IH A' H. fields H. destruct (IH (r_newbin A')) as (A1' & Hr' & H1); [auto with like|]. exists A1'. split; [|done].
    apply rrun_newbin. by rewrite Fb.
  - intros B u d k A x A1 Hf Hr IH A' H. fields H. destruct (IH (r_alloc d (ask (r_tick A)) A')) as (A1' & Hr' & H1); [auto with like|]. exists A1'. split; [|done].
    apply rrun_new; rewrite <- (like_now _ _ _ _ H); [|by rewrite Fo]. unfold r_free, r_addr in *. by rewrite Fl, Fk, Fw.
  - intros B u w p A x A1 Hl Hn Hr IH A' H. fields H. destruct (IH (r_drop w A')) as (A1' & Hr' & H1); [auto with like|]. exists A1'. split; [|done].
    apply rrun_drop; [fin|done..].
Qed.

Lemma sim_call x A y A1 : rcall ask kd x A y A1 → sim (rcall ask' kd x) A y A1.
Proof.
  destruct sim_build as (SG & SB & _).
  intros Hc A' H. fields H.
  assert (r_def A' = r_def A) as Fdef by (unfold r_def; by rewrite Fw).
  assert (∀ o, r_deps (r_prepare o A') = r_deps (r_prepare o A) ∧ r_art (r_prepare o A') = r_art (r_prepare o A)) as Fp.
  { intros o. pose proof (like_fields _ _ _ _ (like_prepare ask ask' o A A' H)) as (? & _ & _ & ? & _). done. }
  destruct Hc as [d A Hfr|o A Hl|h o A r A1 Hg|h o A A1 Hg|h o A Hl Hh|x o u A Hm Hkd Hl Hu Hd|o f A B Hkd Hl Hno ->
    |o f A B b Hkd Hl Hno -> Hb|o f A B b A1 Hkd Hl Hno -> Hb Hr|o f A B e A1 Hkd Hl Hno -> Hb Hr|o f A B A1 Hkd Hl Hno -> Hb Hr
    |o A Hl|o A v Hl Hv|o A d v Hl Hv Hd Hi|o A d Hl Hv Hd Hi|o f A F B d v Hl HF -> Hd Hv|o f A F B d Hl HF -> Hd Hv Hi
    |o A F Hl HF|o A F Hl HF|A|A|A F Hs HF|A Hs|o A Hl|A].
  - eexists. rewrite <- Fo, (like_now _ _ _ _ H). split; [constructor|auto with like].
    rewrite <- (like_now _ _ _ _ H). unfold r_free, r_addr in *. by rewrite Fl, Fk, Fw.
  - eexists. split; [constructor; fin|auto with like].
  - destruct (SG _ _ _ _ _ _ Hg A' H) as (A1' & Hg' & H1). exists A1'. split; [by constructor|done].
  - destruct (SG _ _ _ _ _ _ Hg A' H) as (A1' & Hg' & H1). exists A1'. split; [by constructor|done].
  - rewrite <- Fa. exists A'. split; [constructor; [fin|done]|done].
  - exists A'. split; [eapply rc_mut_used; [exact Hm|done|fin|exact Hu|fin]|done].
  - rewrite <- (proj2 (Fp o)). eexists. split; [eapply rc_lookup_mut; [done|fin|by rewrite Fd|done]|auto with like].
  - eexists. split; [eapply rc_get_mut_hit; [done|fin|by rewrite Fd|reflexivity|by rewrite (proj2 (Fp o))]|auto with like].
  - destruct (SB _ _ _ _ _ Hr (r_tock (r_prepare o A'))) as (A1' & Hr' & H1); [auto with like|].
    eexists. split; [eapply rc_get_mut; [done|fin|by rewrite Fd|reflexivity|by rewrite (proj2 (Fp o))|exact Hr']|auto with like].
  - destruct (SB _ _ _ _ _ Hr (r_tock (r_prepare o A'))) as (A1' & Hr' & H1); [auto with like|].
    eexists. split; [eapply rc_get_mut_err; [done|fin|by rewrite Fd|reflexivity|by rewrite (proj2 (Fp o))|exact Hr']|auto with like].
  - destruct (SB _ _ _ _ _ Hr (r_tock (r_prepare o A'))) as (A1' & Hr' & H1); [auto with like|].
    eexists. split; [eapply rc_get_mut_panic; [done|fin|by rewrite Fd|reflexivity|by rewrite (proj2 (Fp o))|exact Hr']|auto with like].
  - rewrite <- Fs. eexists. split; [constructor; fin|done].
  - eexists. split; [eapply rc_dyn_state; fin|done].
  - eexists. split; [eapply rc_dyn_state_init; [fin|fin|rewrite Fdef; exact Hd|done]|auto with like].
  - eexists. split; [eapply rc_dyn_state_panic; [fin|fin|rewrite Fdef; exact Hd|done]|auto with like].
  - eexists. split; [eapply (rc_dyn_state_mut _ _ o f A' F); [fin|unfold r_affected; by rewrite Fd|reflexivity|rewrite Fdef; exact Hd|by rewrite Fs]|auto 10 with like].
  - eexists. split; [eapply (rc_dyn_state_mut_panic _ _ o f A' F); [fin|unfold r_affected; by rewrite Fd|reflexivity|rewrite Fdef; exact Hd|by rewrite Fs|done]|auto 10 with like].
  - eexists. split; [eapply (rc_invalidate _ _ o A' F); [fin|unfold r_affected; by rewrite Fd]|auto 10 with like].
  - eexists. split; [eapply (rc_purge _ _ o A' F); [fin|unfold r_affected; by rewrite Fd]|auto 10 with like].
  - eexists. split; [constructor|]. destruct H as (t & l & -> & H). by exists t, l.
  - eexists. split; [constructor|]. destruct H as (t & l & -> & H). by exists t, (EClear :: l).
  - eexists. split; [eapply (rc_gc _ _ A' F); [fin|unfold r_garbage; by rewrite Fd, Fk, Fl]|auto 10 with like].
  - eexists. split; [eapply rc_gc_panic; fin|auto with like].
  - rewrite <- Fk. eexists. split; [constructor; fin|done].
  - rewrite <- Fk. eexists. split; [constructor|done].
Qed.

Lemma sim_runs l A A1 : rruns ask kd A l A1 → ∀ A', like A A' → ∃ A1', rruns ask' kd A' l A1' ∧ like A1 A1'.
Proof.
  induction 1 as [A|A0 l A x y A1 Hr IH Hc Hy]; intros A' H; [exists A'; split; [constructor|done]|].
  destruct (IH A' H) as (A2 & Hr' & H2). destruct (sim_call x A y A1 Hc A2 H2) as (A3 & Hc' & H3).
  exists A3. split; [by eapply rruns_call|done].
Qed.
End Sim.

Lemma like_sym ask ask' A A' : like ask ask' A A' → like ask' ask A' A.
Proof.
  intros (t & l & -> & H). exists (r_tick A), (r_log A). split; [by destruct A|]. intros i. symmetry. apply H.
Qed.

(** ** Histories from any state *)
Section From.
Context (E : env).
Notation rruns := (rruns (e_ask E) (e_kind E)).

Lemma from_sound s0 A0 l s :
  Inv s0 → stack s0 = [] → shows s0 A0 → runs E any_op s0 l s → ∃ A, rruns A0 l A ∧ shows s A ∧ Inv s ∧ stack s = [].
Proof.
  intros I0 Hst0 H0 Hr. induction Hr as [|l s n x r s' Hr IH Hp Hs|l s n x k s' Hr IH Hp Hs Hk].
  - exists A0. split; [constructor|done].
  - destruct IH as (A & HA & H & I & Hst).
    destruct (call_sound E x A s n (Returned r) s' I Hst H Hs) as (A' & Hc & H'). exists A'.
    split; [by eapply rruns_call|]. split; [by apply H'|]. eapply (runs_Inv E any_op s0); [by eapply runs_done|done..].
  - destruct IH as (A & HA & H & I & Hst).
    destruct (call_sound E x A s n (Panicked k) s' I Hst H Hs) as (A' & Hc & H').
    assert (k ≠ PkCounterpart) as Hne by (by apply (resumable_iff E _ _ _ _ Hc)).
    exists A'. split; [eapply rruns_call; [done..|congruence]|]. split; [apply (proj1 (shows_stack [] s' A')), H'; congruence|].
    eapply (runs_Inv E any_op s0); [by eapply runs_panic|done..].
Qed.
Lemma from_complete s0 A0 l A :
  Inv s0 → stack s0 = [] → shows s0 A0 → rruns A0 l A → ∃ s, runs E any_op s0 l s ∧ shows s A ∧ Inv s ∧ stack s = [].
Proof.
  intros I0 Hst0 H0 Hr. induction Hr as [A|A0 l A x y A' Hr IH Hc Hy].
  - exists s0. split; [constructor|done].
  - destruct (IH H0) as (s & Hs & H & I & Hst).
    destruct (call_complete E x A y A' s I Hst H Hc) as (n & s' & Hn & H'). specialize (Hn n (le_n _)).
    destruct y as [r|k]; cbn in Hn.
    + assert (runs E any_op s0 ((x, Returned r) :: l) s') as R by (by eapply runs_done).
      exists s'. split; [done|]. split; [by apply H'|]. by eapply (runs_Inv E any_op s0).
    + assert (runs E any_op s0 ((x, Panicked k) :: l) (unwound s')) as R.
      { eapply runs_panic; [done..|]. apply (resumable_iff E _ _ _ _ Hc). congruence. }
      exists (unwound s'). split; [done|]. split; [apply (proj1 (shows_stack [] s' A')), H'; congruence|]. by eapply (runs_Inv E any_op s0).
Qed.
End From.

(** ** Interchangeable states *)

(** [step] answered [y] and left [s']. *)
Definition answered (E : env) (s : st) (x : op) (y : answer) (s' : st) : Prop :=
  ∃ n, step E n x s = match y with Returned r => Done r s' | Panicked k => Panic k s' end.

(** Whatever is called from now on, [s] (in [E]) and [s'] (in [E']) give the same
    answers, up to and including a panic after which no history goes on. *)
Definition same_future (E : env) (s : st) (E' : env) (s' : st) : Prop :=
  ∀ l x y, (∃ t t', runs E any_op s l t ∧ answered E t x y t') ↔ (∃ t t', runs E' any_op s' l t ∧ answered E' t x y t').

(** ... provided that the outside world does the same from now on (debug or not
    and the iteration orders do not matter). *)
Definition interchangeable (s s' : st) : Prop :=
  ∀ E E', e_kind E = e_kind E' → (∀ i, e_ask E (tick s + i) = e_ask E' (tick s' + i)) → same_future E s E' s'.

Lemma like_future E s A E' s' A' :
  Inv s → stack s = [] → shows s A → Inv s' → stack s' = [] → shows s' A' →
  e_kind E = e_kind E' → like (e_ask E) (e_ask E') A A' →
  ∀ l x y, (∃ t t', runs E any_op s l t ∧ answered E t x y t') → (∃ t t', runs E' any_op s' l t ∧ answered E' t x y t').
Proof.
  intros I Hst H I' Hst' H' Hk HL l x y (t & t' & Hr & n & Hn).
  destruct (from_sound E s A l t I Hst H Hr) as (B & HB & Ht & It & Hstt).
  destruct (call_sound E x B t n y t' It Hstt Ht Hn) as (B1 & Hc & _).
  destruct (sim_runs _ (e_ask E') _ l A B HB A' HL) as (B' & HB' & HL').
  destruct (sim_call _ (e_ask E') _ x B y B1 Hc B' HL') as (B1' & Hc' & _). rewrite Hk in *.
  destruct (from_complete E' s' A' l B' I' Hst' H' HB') as (u & Hu & Hsu & Iu & Hstu).
  destruct (call_complete E' x B' y B1' u Iu Hstu Hsu Hc') as (m & u' & Hm & _).
  exists u, u'. split; [done|]. exists m. exact (Hm m (le_n _)).
Qed.

Lemma like_interchangeable s A s' A' t l :
  Inv s → stack s = [] → shows s A → Inv s' → stack s' = [] → shows s' A' → A' = retime t l A → interchangeable s s'.
Proof.
  intros I Hst H I' Hst' H' -> E E' Hk Ha.
  assert (t = tick s') as -> by (rewrite <- (sh_tick _ _ H'); done).
  assert (like (e_ask E) (e_ask E') A (retime (tick s') l A)) as HL.
  { apply like_same. by rewrite (sh_tick _ _ H). }
  intros lx x y. split; [by eapply like_future|]. eapply like_future; try done. by apply like_sym.
Qed.

(** ** Sequences of calls *)

(** The calls [l] (first call first), all of which return. *)
Fixpoint does (E : env) (s : st) (l : list op) (s' : st) : Prop :=
  match l with
  | [] => s' = s
  | x :: l => ∃ n r s1, step E n x s = Done r s1 ∧ does E s1 l s'
  end.
Fixpoint rdoes (ask : nat → N) (kd : kind) (A : ref) (l : list op) (A' : ref) : Prop :=
  match l with
  | [] => A' = A
  | x :: l => ∃ r A1, rcall ask kd x A (Returned r) A1 ∧ rdoes ask kd A1 l A'
  end.

Lemma does_ref E l s A s' :
  Inv s → stack s = [] → shows s A → does E s l s' →
  ∃ A', rdoes (e_ask E) (e_kind E) A l A' ∧ shows s' A' ∧ Inv s' ∧ stack s' = [].
Proof.
  revert s A. induction l as [|x l IH]; intros s A I Hst H; cbn [does rdoes]; [intros ->; by exists A|].
  intros (n & r & s1 & Hs & Hl). destruct (call_sound E x A s n (Returned r) s1 I Hst H Hs) as (A1 & Hc & H1).
  destruct (step_Inv E _ _ _ _ _ I Hst Hs) as [I1 Hst1].
  destruct (IH s1 A1 I1 Hst1) as (A' & Hd & ?); [by apply H1|done|]. exists A'. split; [eauto|done].
Qed.

Definition req (A A' : ref) : Prop := A' = retime (r_tick A') (r_log A') A.

(** A law of the reference cache, for states satisfying [P], is one of the cache. *)
Lemma law_holds E (P : ref → Prop) l1 l2 s s1 s2 :
  (∀ A A1 A2, P A → rdoes (e_ask E) (e_kind E) A l1 A1 → rdoes (e_ask E) (e_kind E) A l2 A2 → req A1 A2) →
  reachable E s → (∀ A, shows s A → P A) → does E s l1 s1 → does E s l2 s2 → interchangeable s1 s2.
Proof.
  intros HL [l Hr] HP H1 H2. destruct (reach_Inv E any_op s (ex_intro _ l Hr)) as [I Hst].
  destruct (history_sound E l s Hr) as (A & _ & H).
  destruct (does_ref E l1 s A s1 I Hst H H1) as (A1 & D1 & S1 & I1 & Hst1).
  destruct (does_ref E l2 s A s2 I Hst H H2) as (A2 & D2 & S2 & I2 & Hst2).
  eapply like_interchangeable; [exact I1|exact Hst1|exact S1|exact I2|exact Hst2|exact S2|].
  by eapply HL; [apply HP|..].
Qed.

(** ** Fields after updates *)
Lemma req_ext A A' :
  (∀ o, r_art A' !! o = r_art A !! o) → (∀ o, r_state A' !! o = r_state A !! o) → (∀ o, o ∈ r_known A' ↔ o ∈ r_known A) →
  (∀ u w, (u, w) ∈ r_deps A' ↔ (u, w) ∈ r_deps A) → (∀ a, a ∈ r_stray A' ↔ a ∈ r_stray A) →
  r_who A' = r_who A → r_live A' = r_live A → r_nobj A' = r_nobj A → r_nbin A' = r_nbin A → req A A'.
Proof.
  destruct A as [a1 a2 a3 a4 a5 a6 a7 a8 a9 a10 a11], A' as [b1 b2 b3 b4 b5 b6 b7 b8 b9 b10 b11]. unfold req, retime. cbn.
  intros H1 H2 H3 H4 H5 -> -> -> ->. f_equal; [by apply map_eq|by apply map_eq|by apply set_eq| |by apply set_eq].
  apply set_eq. intros [u w]. apply H4.
Qed.

Lemma filter_out {X} (F : gset obj) (m : gmap obj X) k :
  (filter (λ x : obj * X, x.1 ∉ F) m) !! k = if decide (k ∈ F) then None else m !! k.
Proof.
  destruct (decide (k ∈ F)) as [Hk|Hk].
  - apply map_filter_lookup_None. right. intros x _ Hn. by apply Hn.
  - destruct (m !! k) as [x|] eqn:Hx; [by apply map_filter_lookup_Some|]. apply map_filter_lookup_None. by left.
Qed.
Lemma filter_out_ne {X} (w : obj) (m : gmap obj X) k : k ≠ w → (filter (λ x : obj * X, x.1 ∉ ({[w]} : gset obj)) m) !! k = m !! k.
Proof. intros Hk. rewrite filter_out. rewrite decide_False; [done|]. by rewrite elem_of_singleton. Qed.
Lemma deps_out (F : gset obj) (D : gset (obj * obj)) u w :
  (u, w) ∈ filter (λ x : obj * obj, x.1 ∉ F ∧ x.2 ∉ F) D ↔ (u ∉ F ∧ w ∉ F) ∧ (u, w) ∈ D.
Proof. by rewrite elem_of_filter. Qed.
Lemma known_spoil A o x : x ∈ r_stray (r_spoil o A) ↔ x ∈ r_stray A ∨ (o ∉ r_known A ∧ r_addr A o = Some x).
Proof.
  cbn. destruct (decide (o ∈ r_known A)) as [Hk|Hk]; [naive_solver|].
  rewrite elem_of_union. unfold r_addrs. destruct (r_addr A o); [|set_solver]. rewrite elem_of_singleton. naive_solver.
Qed.

(** What directly or indirectly used [o] or [w]. *)
Lemma affected_two A B o w F1 F2 :
  r_affected A o F1 → r_deps B = filter (λ x, x.1 ∉ F1 ∧ x.2 ∉ F1) (r_deps A) → r_affected B w F2 →
  ∀ z, z ∈ F1 ∨ z ∈ F2 ↔ rtc (λ x y, (y, x) ∈ r_deps A) o z ∨ rtc (λ x y, (y, x) ∈ r_deps A) w z.
Proof.
  intros H1 HB H2 z. split.
  - intros [Hz|Hz]; [left; by apply H1|]. right. apply H2 in Hz. clear H2.
    induction Hz as [|x y z Hxy _ IH]; [done|]. eapply rtc_l; [|exact IH]. rewrite HB in Hxy. by apply deps_out in Hxy as [_ ?].
  - intros [Hz|Hz]; [left; by apply H1|].
    assert (∀ x, x ∈ F1 ∨ x ∈ F2 → rtc (λ x y, (y, x) ∈ r_deps A) x z → z ∈ F1 ∨ z ∈ F2) as Hind.
    { clear Hz. intros x Hx Hr. induction Hr as [|x y z Hxy _ IH]; [done|]. apply IH.
      destruct (decide (y ∈ F1)) as [Hy|Hy]; [by left|].
      destruct (decide (x ∈ F1)) as [Hx1|Hx1]; [left; apply H1; eapply rtc_r; [by apply H1|done]|].
      destruct Hx as [?|Hx]; [done|]. right. apply H2. eapply rtc_r; [by apply H2|]. rewrite HB. by apply deps_out. }
    apply (Hind w); [|done]. right. apply H2, rtc_refl.
Qed.
Lemma affected_same A B o F1 F2 :
  r_affected A o F1 → r_deps B = r_deps A → r_affected B o F2 → ∀ z, z ∈ F2 ↔ z ∈ F1.
Proof. intros H1 HB H2 z. by rewrite (H1 z), (H2 z), HB. Qed.

Lemma affected_again A B o F1 F2 :
  r_affected A o F1 → r_deps B = filter (λ x, x.1 ∉ F1 ∧ x.2 ∉ F1) (r_deps A) → r_affected B o F2 → ∀ z, z ∈ F2 → z ∈ F1.
Proof.
  intros H1 HB H2 z Hz. pose proof (affected_two A B o o F1 F2 H1 HB H2 z) as Ht. apply H1. tauto.
Qed.

Ltac calls :=
  repeat match goal with
  | H : rdoes _ _ _ [] _ |- _ => cbn in H; subst
  | H : rdoes _ _ _ (_ :: _) _ |- _ => destruct H as (? & ? & ? & H)
  | H : rcall _ _ ?x _ (Returned _) _ |- _ =>
      lazymatch x with
      | OInvalidate _ => inversion H; clear H; subst
      | OPurge _ => inversion H; clear H; subst
      | ODynStateMut _ _ => inversion H; clear H; subst
      | ODynState _ => inversion H; clear H; subst
      | OClearArtifacts => inversion H; clear H; subst
      | OClearAll => inversion H; clear H; subst
      | OGc => inversion H; clear H; subst
      | ODrop _ => inversion H; clear H; subst
      | OLookup _ _ => inversion H; clear H; subst
      | OGetDynState _ => inversion H; clear H; subst
      | OIsKnown _ => inversion H; clear H; subst
      | ONumKnown => inversion H; clear H; subst
      end
  | H : mut_of _ _ |- _ => destruct H as [[? ?]|[? ?]]; discriminate
  end.

(** Splits an equality of states field by field. *)
Ltac addrs A := repeat match goal with |- context [r_addrs ?X ?o] => lazymatch X with A => fail | _ => change (r_addrs X o) with (r_addrs A o) end end.
Ltac fields A :=
  apply req_ext; [intros k|intros k|intros k|intros k k'|intros k|reflexivity..]; cbn; addrs A;
  rewrite ?deps_out, ?filter_out, ?elem_of_difference, ?elem_of_singleton, ?lookup_empty; try done.
Ltac dec := repeat match goal with
  | |- context [decide ?P] => lazymatch P with context [decide _] => fail | _ => destruct (decide P) end
  end; try done; try tauto.

Lemma comm_sets A B B' o w F1 F2 G1 G2 :
  r_affected A o F1 → r_affected B w F2 → r_affected A w G1 → r_affected B' o G2 →
  r_deps B = filter (λ x, x.1 ∉ F1 ∧ x.2 ∉ F1) (r_deps A) →
  r_deps B' = filter (λ x, x.1 ∉ G1 ∧ x.2 ∉ G1) (r_deps A) →
  ∀ z, z ∈ G1 ∨ z ∈ G2 ↔ z ∈ F1 ∨ z ∈ F2.
Proof.
  intros H1 H2 H3 H4 HB HB' z.
  rewrite (affected_two A B o w F1 F2 H1 HB H2 z), (affected_two A B' w o G1 G2 H3 HB' H4 z). tauto.
Qed.
Lemma same_sets A B o F F1 F2 :
  r_affected A o F → r_affected A o F1 → r_affected B o F2 →
  r_deps B = filter (λ x, x.1 ∉ F1 ∧ x.2 ∉ F1) (r_deps A) →
  ∀ z, z ∈ F ↔ z ∈ F1 ∨ z ∈ F2.
Proof. intros H H1 H2 HB z. rewrite (affected_two A B o o F1 F2 H1 HB H2 z), (H z). tauto. Qed.

Ltac comm A o w :=
  match goal with H1 : r_affected A o ?F1, H2 : r_affected _ w ?F2, H3 : r_affected A w ?G1, H4 : r_affected _ o ?G2 |- _ =>
    pose proof (comm_sets A _ _ o w F1 F2 G1 G2 H1 H2 H3 H4 eq_refl eq_refl) as Hz end.
Ltac again A o :=
  match goal with H1 : r_affected A o ?F, H2 : r_affected A o ?F1, H3 : r_affected _ o ?F2 |- _ =>
    lazymatch F with F1 => fail | _ => idtac end;
    pose proof (same_sets A _ o F F1 F2 H1 H2 H3 eq_refl) as Hz end.
Section Laws.
Context (ask : nat → N) (kd : kind).
Notation rdoes := (rdoes ask kd).

(** Two removals, in either order. *)
Lemma l_invalidate_comm o w A A1 A2 : rdoes A [OInvalidate o; OInvalidate w] A1 → rdoes A [OInvalidate w; OInvalidate o] A2 → req A1 A2.
Proof.
  intros H1 H2. calls. comm A o w. fields A.
  - generalize (Hz k); clear; intros Hzk; dec.
  - generalize (Hz k), (Hz k'); clear; tauto.
  - clear; dec; set_solver.
Qed.
Lemma l_purge_comm o w A A1 A2 : rdoes A [OPurge o; OPurge w] A1 → rdoes A [OPurge w; OPurge o] A2 → req A1 A2.
Proof.
  intros H1 H2. calls. comm A o w. fields A.
  - generalize (Hz k); clear; intros Hzk; dec.
  - dec.
  - tauto.
  - generalize (Hz k), (Hz k'); clear; tauto.
  - clear; dec; set_solver.
Qed.
Lemma l_inv_purge_comm o w A A1 A2 : rdoes A [OInvalidate o; OPurge w] A1 → rdoes A [OPurge w; OInvalidate o] A2 → req A1 A2.
Proof.
  intros H1 H2. calls. comm A o w. fields A.
  - generalize (Hz k); clear; intros Hzk; dec.
  - generalize (Hz k), (Hz k'); clear; tauto.
  - clear; destruct (decide (o = w)) as [->|]; dec; set_solver.
Qed.
Lemma l_invalidate_idem o A A1 A2 : rdoes A [OInvalidate o] A1 → rdoes A [OInvalidate o; OInvalidate o] A2 → req A1 A2.
Proof.
  intros H1 H2. calls. again A o. fields A.
  - generalize (Hz k); clear; intros Hzk; dec.
  - generalize (Hz k), (Hz k'); clear; tauto.
  - clear; dec; set_solver.
Qed.
Lemma l_purge_idem o A A1 A2 : rdoes A [OPurge o] A1 → rdoes A [OPurge o; OPurge o] A2 → req A1 A2.
Proof.
  intros H1 H2. calls. again A o. fields A.
  - generalize (Hz k); clear; intros Hzk; dec.
  - dec.
  - tauto.
  - generalize (Hz k), (Hz k'); clear; tauto.
  - clear; dec; set_solver.
Qed.
Lemma l_inv_purge o A A1 A2 : rdoes A [OPurge o] A1 → rdoes A [OInvalidate o; OPurge o] A2 → req A1 A2.
Proof.
  intros H1 H2. calls. again A o. fields A.
  - generalize (Hz k); clear; intros Hzk; dec.
  - generalize (Hz k), (Hz k'); clear; tauto.
  - clear; dec; set_solver.
Qed.
Lemma l_purge_inv o A A1 A2 : rdoes A [OPurge o] A1 → rdoes A [OPurge o; OInvalidate o] A2 → req A1 A2.
Proof.
  intros H1 H2. calls. again A o. fields A.
  - generalize (Hz k); clear; intros Hzk; dec.
  - generalize (Hz k), (Hz k'); clear; tauto.
  - clear; dec; set_solver.
Qed.

(** Clearing. *)
Lemma l_clear_art_idem A A1 A2 : rdoes A [OClearArtifacts] A1 → rdoes A [OClearArtifacts; OClearArtifacts] A2 → req A1 A2.
Proof. intros H1 H2. calls. by fields A. Qed.

Definition erased (x : op) : Prop :=
  match x with
  | OInvalidate _ | OPurge _ | OClearArtifacts | OClearAll | OGc | ODynState _ | ODynStateMut _ _ | OLookup _ _ | OLookupMut _ _
  | OGetDynState _ | OIsKnown _ | ONumKnown => True
  | OAlloc _ | ODrop _ | OGet _ _ | OGetMut _ _ => False
  end.
Lemma erased_rest x A r A1 : erased x → rcall ask kd x A (Returned r) A1 →
  r_who A1 = r_who A ∧ r_live A1 = r_live A ∧ r_nobj A1 = r_nobj A ∧ r_nbin A1 = r_nbin A.
Proof.
  intros Hx Hc. inversion Hc; subst; try done.
  unfold r_prepare. cbn. by destruct (decide _).
Qed.
Lemma l_erased l A A1 A2 : Forall erased l → rdoes A [OClearAll] A1 → rdoes A (l ++ [OClearAll]) A2 → req A1 A2.
Proof.
  intros Hl H1 H2. calls.
  assert (∃ B, rdoes B [OClearAll] A2 ∧ r_who B = r_who A ∧ r_live B = r_live A ∧ r_nobj B = r_nobj A ∧ r_nbin B = r_nbin A) as (B & HB & E1 & E2 & E3 & E4).
  { revert A H2. induction Hl as [|x l Hx Hl IH]; intros A H2; [by exists A|]. destruct H2 as (r & A3 & Hc & H2).
    destruct (IH A3 H2) as (B & HB & ? & ? & ? & ?). destruct (erased_rest x A r A3 Hx Hc) as (? & ? & ? & ?).
    exists B. split; [done|]. split_and!; congruence. }
  calls. apply req_ext; cbn; done.
Qed.

(** A call that changes nothing. *)
Definition looks (x : op) : Prop :=
  match x with OLookup _ _ | OGetDynState _ | OIsKnown _ | ONumKnown => True | _ => False end.
Lemma l_looks x A A1 A2 : looks x → rdoes A [] A1 → rdoes A [x] A2 → req A1 A2.
Proof. intros Hx H1 H2. destruct x; try done; calls; by apply req_ext. Qed.
Lemma l_get_hit h o A A1 A2 : r_art A !! o ≠ None → rdoes A [] A1 → rdoes A [OGet h o] A2 → req A1 A2.
Proof.
  intros Hx H1 (r & A3 & Hc & H2). calls. inversion Hc; subst; [|match goal with H : mut_of _ _ |- _ => by destruct H as [[? ?]|[? ?]] end..].
  match goal with H : rget _ _ _ _ _ _ _ _ |- _ => inversion H; subst end; [by apply req_ext|done..].
Qed.

(** Dynamic states. *)
Lemma l_dyn_state_idem o A A1 A2 : rdoes A [ODynState o] A1 → rdoes A [ODynState o; ODynState o] A2 → req A1 A2.
Proof.
  intros H1 H2. calls; simplify_eq/=; try (by apply req_ext); match goal with H : <[_ := _]> _ !! _ = None |- _ => by rewrite lookup_insert in H end.
Qed.
Ltac vals A :=
  repeat match goal with
  | H : r_def ?X ?o = Some ?d |- _ => lazymatch X with A => fail | _ => change (r_def A o = Some d) in H end
  | H : r_state ?X !! _ = Some _ ∨ _ |- _ => lazymatch X with A => fail | _ => cbn in H end
  end; simplify_eq;
  repeat match goal with
  | H : <[?o := _]> _ !! ?o = Some _ ∨ <[?o := _]> _ !! ?o = None ∧ _ |- _ =>
      rewrite !lookup_insert in H; destruct H as [H|[H _]]; [|discriminate H]; injection H as H
  | H : <[?o := _]> _ !! ?w = Some _ ∨ <[?o := _]> _ !! ?w = None ∧ _ |- _ => rewrite !lookup_insert_ne in H by done
  | H : filter _ _ !! _ = Some _ ∨ filter _ _ !! _ = None ∧ _ |- _ => rewrite !filter_out_ne in H by done
  | H : ?m !! ?o = Some ?v ∨ ?m !! ?o = None ∧ ?x = Some ?v, H' : ?m !! ?o = Some ?v' ∨ ?m !! ?o = None ∧ ?x = Some ?v' |- _ =>
      assert (v = v') by (destruct H as [?|[? ?]], H' as [?|[? ?]]; congruence); clear H'
  end; subst.

Lemma l_dyn_state_mut o f A A1 A2 : rdoes A [ODynStateMut o f] A1 → rdoes A [ODynState o; ODynStateMut o f] A2 → req A1 A2.
Proof.
  intros H1 H2. calls.
  - rename x0 into A. vals A.
    match goal with H1 : r_affected A o ?F1, H2 : r_affected A o ?F2 |- _ => pose proof (affected_same A A o _ _ H1 eq_refl H2) as Hz end.
    fields A; [generalize (Hz k); clear; intros Hzk; dec|]. generalize (Hz k), (Hz k'); clear; tauto.
  - vals A.
    match goal with H1 : r_affected A o ?F1, H2 : r_affected _ o ?F2 |- _ => pose proof (affected_same A _ o _ _ H1 eq_refl H2) as Hz end.
    fields A.
    + generalize (Hz k); clear; intros Hzk; dec.
    + destruct (decide (k = o)) as [->|]; [|by rewrite !lookup_insert_ne]. rewrite !lookup_insert.
      match goal with H : _ ∨ _ |- _ => destruct H as [?|[? ?]]; congruence end.
    + set_solver.
    + generalize (Hz k), (Hz k'); clear; tauto.
    + tauto.
Qed.
Lemma l_mut_mut o f g A A1 A2 : rdoes A [ODynStateMut o (λ v, g (f v))] A1 → rdoes A [ODynStateMut o f; ODynStateMut o g] A2 → req A1 A2.
Proof.
  intros H1 H2. calls. again A o. vals A. fields A.
  - generalize (Hz k); clear; intros Hzk; dec.
  - by rewrite insert_insert.
  - clear. set_solver.
  - generalize (Hz k), (Hz k'); clear; tauto.
  - tauto.
Qed.
Lemma l_inv_mut o f A A1 A2 : rdoes A [ODynStateMut o f] A1 → rdoes A [OInvalidate o; ODynStateMut o f] A2 → req A1 A2.
Proof.
  intros H1 H2. calls. again A o. vals A. fields A.
  - generalize (Hz k); clear; intros Hzk; dec.
  - generalize (Hz k), (Hz k'); clear; tauto.
  - clear. dec; set_solver.
Qed.
Lemma l_mut_inv o f A A1 A2 : rdoes A [ODynStateMut o f] A1 → rdoes A [ODynStateMut o f; OInvalidate o] A2 → req A1 A2.
Proof.
  intros H1 H2. calls. again A o. vals A. fields A.
  - generalize (Hz k); clear; intros Hzk; dec.
  - generalize (Hz k), (Hz k'); clear; tauto.
  - clear. dec; set_solver.
Qed.
Lemma l_mut_comm o w f g A A1 A2 : o ≠ w →
  rdoes A [ODynStateMut o f; ODynStateMut w g] A1 → rdoes A [ODynStateMut w g; ODynStateMut o f] A2 → req A1 A2.
Proof.
  intros Hne H1 H2. calls. comm A o w. vals A. fields A.
  - generalize (Hz k); clear; intros Hzk; dec.
  - by rewrite insert_commute.
  - clear. set_solver.
  - generalize (Hz k), (Hz k'); clear; tauto.
  - clear. set_solver.
Qed.

(** Addresses of live builders are different. *)
Definition r_distinct (A : ref) : Prop := ∀ o w, o ∈ r_live A → w ∈ r_live A → o ≠ w → r_addrs A o ## r_addrs A w.
Lemma l_inv_mut_comm o w f A A1 A2 : r_distinct A → o ≠ w →
  rdoes A [OInvalidate w; ODynStateMut o f] A1 → rdoes A [ODynStateMut o f; OInvalidate w] A2 → req A1 A2.
Proof.
  intros Hd Hne H1 H2. assert (r_addrs A o ## r_addrs A w) as Hx by (apply Hd; calls; done). clear Hd.
  calls. comm A o w. vals A. fields A.
  - generalize (Hz k); clear; intros Hzk; dec.
  - generalize (Hz k), (Hz k'); clear; tauto.
  - clear -Hx Hne. dec; set_solver.
Qed.
Lemma l_purge_mut_comm o w f A A1 A2 : r_distinct A → o ≠ w →
  rdoes A [OPurge w; ODynStateMut o f] A1 → rdoes A [ODynStateMut o f; OPurge w] A2 → req A1 A2.
Proof.
  intros Hd Hne H1 H2. assert (r_addrs A o ## r_addrs A w) as Hx by (apply Hd; calls; done). clear Hd.
  calls. comm A o w. vals A. fields A.
  - generalize (Hz k); clear; intros Hzk; dec.
  - destruct (decide (k = o)) as [->|]; [rewrite !lookup_insert|rewrite !lookup_insert_ne, filter_out by done]; clear -Hne; dec; set_solver.
  - clear -Hne. set_solver.
  - generalize (Hz k), (Hz k'); clear; tauto.
  - clear -Hx Hne. dec; set_solver.
Qed.

(** Dropping. *)
Definition removes (x : op) : Prop :=
  match x with OInvalidate _ | OPurge _ | ODynState _ | ODynStateMut _ _ | OClearArtifacts | OClearAll => True | _ => False end.
Lemma l_drop_comm o x A A1 A2 : removes x → rdoes A [ODrop o; x] A1 → rdoes A [x; ODrop o] A2 → req A1 A2.
Proof.
  intros Hx H1 H2. destruct x; try done; calls; simplify_eq/=; try (by apply req_ext).
  - match goal with H1 : r_def (r_drop _ _) _ = _, H2 : r_def _ _ = _ |- _ => unfold r_def in H1, H2; cbn in H1 end.
    simplify_eq/=. by apply req_ext.
  - match goal with H1 : r_affected A _ ?F1, H2 : r_affected _ _ ?F2 |- _ => pose proof (affected_same A _ _ _ _ H1 eq_refl H2) as Hz end.
    vals A. fields A; [|generalize (Hz k), (Hz k'); clear; tauto]. generalize (Hz k); clear; intros Hzk; dec.
  - match goal with H1 : r_affected A _ ?F1, H2 : r_affected _ _ ?F2 |- _ => pose proof (affected_same A _ _ _ _ H1 eq_refl H2) as Hz end.
    fields A; [|generalize (Hz k), (Hz k'); clear; tauto]. generalize (Hz k); clear; intros Hzk; dec.
  - match goal with H1 : r_affected A _ ?F1, H2 : r_affected _ _ ?F2 |- _ => pose proof (affected_same A _ _ _ _ H1 eq_refl H2) as Hz end.
    fields A; [|generalize (Hz k), (Hz k'); clear; tauto]. generalize (Hz k); clear; intros Hzk; dec.
Qed.

(** Writing into artifacts. *)
Lemma prepare_twice o f A : r_prepare o (r_tock (r_spoil o (r_write o f (r_prepare o A)))) = r_tock (r_spoil o (r_write o f (r_prepare o A))).
Proof.
  unfold r_prepare at 1. rewrite decide_False; [done|]. cbn. unfold r_prepare. destruct (decide ((o, o) ∈ r_deps A)) as [H|H]; [|done].
  cbn. rewrite deps_out. intros [[Hn _] _]. apply Hn. by apply elem_of_singleton.
Qed.
Lemma l_lookup_mut_twice o f g A A1 A2 :
  rdoes A [OLookupMut o (λ v, g (f v))] A1 → rdoes A [OLookupMut o f; OLookupMut o g] A2 → req A1 A2.
Proof.
  intros (r1 & B1 & C1 & ->) (r2 & B2 & C2 & r3 & B3 & C3 & ->).
  inversion C1; subst. inversion C2; subst. inversion C3; subst. rewrite prepare_twice.
  remember (r_prepare o A) as B. apply req_ext; intros; cbn; try done.
  - destruct (decide (o = o0)) as [->|]; [rewrite !lookup_alter; by destruct (r_art B !! o0)|by rewrite !lookup_alter_ne].
  - dec. change (r_addrs _ o) with (r_addrs B o). rewrite !elem_of_union. unfold r_addrs, r_addr. cbn. set_solver.
Qed.
Lemma affected_one B o F : r_affected B o F → (∀ u, (u, o) ∈ r_deps B → u = o) → F = {[o]}.
Proof.
  intros HF Hu. apply set_eq. intros z. rewrite (HF z), elem_of_singleton. split; [|intros ->; apply rtc_refl].
  intros Hz. clear HF. induction Hz as [|x y z Hxy _ IH]; [done|]. assert (y = x) as -> by (by apply Hu). by apply IH.
Qed.
Lemma l_lookup_mut_then o f A A1 A2 :
  rdoes A [OInvalidate o] A1 → rdoes A [OLookupMut o f; OInvalidate o] A2 → req A1 A2.
Proof.
  intros H1 (r2 & B2 & C2 & r3 & B3 & C3 & ->). inversion C2; subst. calls.
  match goal with H1 : r_affected A o ?F1, H2 : r_affected (r_tock _) o ?F2, Hu : ∀ u, _ → u = o |- _ =>
    assert (F1 = {[o]}) as -> by (exact (affected_one A o F1 H1 Hu));
    assert (F2 = {[o]}) as -> end.
  { eapply affected_one; [done|]. intros u. cbn. unfold r_prepare. destruct (decide _); [|auto]. cbn. rewrite deps_out. naive_solver. }
  unfold r_prepare. destruct (decide ((o, o) ∈ r_deps A)) as [Hs|Hs]; fields A.
  - destruct (decide (k = o)) as [->|]; [by rewrite !decide_True by (by apply elem_of_singleton)|]. rewrite !decide_False by (by rewrite elem_of_singleton).
    by rewrite lookup_alter_ne, filter_out_ne.
  - tauto.
  - clear; dec; set_solver.
  - destruct (decide (k = o)) as [->|]; [by rewrite !decide_True by (by apply elem_of_singleton)|]. rewrite !decide_False by (by rewrite elem_of_singleton).
    by rewrite lookup_alter_ne.
  - clear; dec; set_solver.
Qed.
Lemma l_gc_nothing A A1 A2 : (∀ o, o ∈ r_known A → o ∈ r_live A) → rdoes A [] A1 → rdoes A [OGc] A2 → req A1 A2.
Proof.
  intros HA H1 H2. calls.
  match goal with H : r_garbage A ?F |- _ => assert (F = ∅) as -> by (apply set_eq; intros z; rewrite (H z); set_solver) end.
  fields A; set_solver.
Qed.
End Laws.

(** ** Carried over *)
Lemma distinct_shows E s A : reachable E s → shows s A → r_distinct A.
Proof.
  intros [l Hr] H o w Ho Hw Hne. destruct (reach_Inv E any_op s (ex_intro _ l Hr)) as [I Hst].
  rewrite (sh_live _ _ H) in Ho, Hw. unfold r_addrs, r_addr. rewrite (sh_who _ _ H).
  destruct (objs s !! o) as [[d a]|] eqn:E1; cbn; [|apply disjoint_empty_l]. destruct (objs s !! w) as [[d' a']|] eqn:E2; cbn; [|apply disjoint_empty_r].
  apply disjoint_singleton_l. rewrite elem_of_singleton. intros ->. apply Hne. eapply (i_addr _ I); [by left|by left|done..].
Qed.
