(** Where builders are in memory (C70): proofs, on the reference cache of C44. *)
From Verif Require Export PlaceSpec RefCalls.
From stdpp Require Import relations.

Section Place.
Context (ask ask' : nat → N) (kd : kind) (b : bool) (Hinj : ∀ t t', ask' t = ask' t' → t = t').

Definition r_move (W : gmap obj (bdef * addr)) (S : gset addr) (A : ref) : ref :=
  Ref (r_art A) (r_state A) (r_known A) (r_deps A) S W (r_live A) (r_nobj A) (r_nbin A) (r_tick A) (r_log A).
Record moved (A A' : ref) : Prop := {
  mv_is : A' = r_move (r_who A') (r_stray A') A;
  mv_def : ∀ o, r_def A' o = r_def A o;
  mv_old : ∀ o a, r_addr A' o = Some a → ∃ t, t < r_tick A' ∧ a = ask' t;
  mv_stray : b = true → r_stray A = ∅ ∧ r_stray A' = ∅;
  mv_quiet : ∀ o d, r_def A o = Some d → unasking (bd_body d);
}.
Lemma moved_fields A A' : moved A A' →
  r_art A' = r_art A ∧ r_state A' = r_state A ∧ r_known A' = r_known A ∧ r_deps A' = r_deps A ∧
  r_live A' = r_live A ∧ r_nobj A' = r_nobj A ∧ r_nbin A' = r_nbin A ∧ r_tick A' = r_tick A ∧ r_log A' = r_log A.
Proof. intros H. rewrite (mv_is _ _ H). done. Qed.

Ltac mv := intros [E D O S Q]; split; [rewrite E; reflexivity|exact D|exact O|exact S|exact Q].
Lemma moved_use u w A A' : moved A A' → moved (r_use u w A) (r_use u w A'). Proof. mv. Qed.
Lemma moved_put o v A A' : moved A A' → moved (r_put o v A) (r_put o v A'). Proof. mv. Qed.
Lemma moved_store o v A A' : moved A A' → moved (r_store o v A) (r_store o v A'). Proof. mv. Qed.
Lemma moved_write o f A A' : moved A A' → moved (r_write o f A) (r_write o f A'). Proof. mv. Qed.
Lemma moved_forget F A A' : moved A A' → moved (r_forget F A) (r_forget F A'). Proof. mv. Qed.
Lemma moved_unknow F A A' : moved A A' → moved (r_unknow F A) (r_unknow F A'). Proof. mv. Qed.
Lemma moved_note e A A' : moved A A' → moved (r_note e A) (r_note e A'). Proof. mv. Qed.
Lemma moved_newbin A A' : moved A A' → moved (r_newbin A) (r_newbin A'). Proof. mv. Qed.
Lemma moved_drop o A A' : moved A A' → moved (r_drop o A) (r_drop o A'). Proof. mv. Qed.
Lemma moved_meet o A A' : moved A A' → moved (r_meet o A) (r_meet o A').
Proof.
  intros [E D O S Q]. split; [rewrite E; reflexivity|exact D|exact O| |exact Q].
  intros Hb. cbn. destruct (S Hb) as [-> ->]. split; apply difference_empty_L || set_solver.
Qed.
Lemma moved_tock A A' : moved A A' → moved (r_tock A) (r_tock A').
Proof.
  intros [E D O S Q]. split; [rewrite E; reflexivity|exact D| |exact S|exact Q].
  intros o a Ho. destruct (O o a Ho) as (t & Ht & ->). exists t. split; [cbn; lia|done].
Qed.
Lemma moved_spoil o A A' : (b = true → o ∈ r_known A) → moved A A' → moved (r_spoil o A) (r_spoil o A').
Proof.
  intros Hk H. destruct (moved_fields _ _ H) as (_ & _ & Fk & _). destruct H as [E D O S Q].
  split; [rewrite E; reflexivity|exact D|exact O| |exact Q].
  intros Hb. cbn. rewrite Fk, !decide_True by auto. auto.
Qed.
Lemma moved_prepare o A A' : moved A A' → moved (r_prepare o A) (r_prepare o A').
Proof.
  intros H. destruct (moved_fields _ _ H) as (_ & _ & _ & Fd & _). unfold r_prepare. rewrite Fd.
  destruct (decide _); [by apply moved_forget|done].
Qed.
Lemma moved_alloc d a A A' : unasking (bd_body d) → moved A A' → moved (r_alloc d a A) (r_alloc d (ask' (r_tick A')) A').
Proof.
  intros Hd H. destruct (moved_fields _ _ H) as (_ & _ & _ & _ & _ & Fo & _). destruct H as [E D O S Q]. split.
  - rewrite E. reflexivity.
  - intros o. unfold r_def. cbn. rewrite Fo. destruct (decide (o = r_nobj A)) as [->|Hne].
    + by rewrite !lookup_insert.
    + rewrite !lookup_insert_ne by done. apply D.
  - intros o x. unfold r_addr. cbn. destruct (decide (o = r_nobj A')) as [->|Hne].
    + rewrite lookup_insert. intros [= <-]. exists (r_tick A'). split; [lia|done].
    + rewrite lookup_insert_ne by done. intros Hx. destruct (O o x Hx) as (t & Ht & ->). exists t. split; [lia|done].
  - exact S.
  - intros o d'. unfold r_def. cbn. destruct (decide (o = r_nobj A)) as [->|Hne].
    + rewrite lookup_insert. by intros [= <-].
    + rewrite lookup_insert_ne by done. apply Q.
Qed.
Lemma moved_free A A' : moved A A' → r_free A' (ask' (r_tick A')).
Proof.
  intros H o _ Ho. destruct (mv_old _ _ H o _ Ho) as (t & Ht & He). apply Hinj in He. lia.
Qed.

Hint Resolve moved_use moved_put moved_store moved_write moved_forget moved_unknow moved_note moved_newbin moved_drop
  moved_meet moved_tock moved_prepare : moved.
Definition msim {X} (R : ref → X → ref → Prop) (A : ref) (x : X) (A1 : ref) : Prop :=
  ∀ A', moved A A' → ∃ A1', R A' x A1' ∧ moved A1 A1'.
Ltac fields H := let a := fresh "Fa" in let b := fresh "Fs" in let c := fresh "Fk" in let d := fresh "Fd" in
  let g := fresh "Fl" in let h := fresh "Fo" in let i := fresh "Fb" in let j := fresh "Ft" in let k := fresh "Fdef" in
  pose proof (moved_fields _ _ H) as (a & b & c & d & g & h & i & j & _); pose proof (mv_def _ _ H) as k.
Ltac fin := repeat match goal with H : _ ?A' = _ ?A |- context [_ ?A'] => rewrite H end; done.

Lemma place_build :
  (∀ B h o A x A1, rget ask kd B h o A x A1 → msim (rget ask' kd B h o) A x A1) ∧
  (∀ B o A x A1, rbuild ask kd B o A x A1 → msim (rbuild ask' kd B o) A x A1) ∧
  (∀ B u p A x A1, rrun ask kd B u p A x A1 → unasking p → msim (rrun ask' kd B u p) A x A1).
Proof.
  apply (ref_min ask kd (λ B h o A x A1, msim (rget ask' kd B h o) A x A1) (λ B o A x A1, msim (rbuild ask' kd B o) A x A1)
    (λ B u p A x A1, unasking p → msim (rrun ask' kd B u p) A x A1)); unfold msim.
  - intros B h o A c Hl Hh Hb A' H. fields H. exists A'. split; [|done]. apply rget_hit; fin.
  - intros B h o A c A1 Hl Hh Hb Hr IH A' H. fields H. destruct (IH A' H) as (A1' & Hr' & H1). exists A1'. split; [|done]. eapply rget_built; [fin..|exact Hr'].
  - intros B h o A e A1 Hl Hh Hb Hr IH A' H. fields H. destruct (IH A' H) as (A1' & Hr' & H1). exists A1'. split; [|done]. eapply rget_failed; [fin..|exact Hr'].
  - intros B h o A A1 Hl Hh Hb Hr IH A' H. fields H. destruct (IH A' H) as (A1' & Hr' & H1). exists A1'. split; [|done]. eapply rget_panicked; [fin..|exact Hr'].
  - intros B o A d Hd Hs Hi A' H. fields H. exists (r_meet o A'). split; [|by apply moved_meet]. eapply rbuild_noinit; [rewrite Fdef; exact Hd|fin|done].
  - intros B o A d v c A1 Hd Hv Hr IH A' H. fields H.
    destruct (IH (mv_quiet _ _ H o d Hd) (r_note (ECall o) (r_put o v (r_meet o A')))) as (A1' & Hr' & H1); [auto with moved|].
    eexists. split; [eapply rbuild_ok; [rewrite Fdef; exact Hd|rewrite Fs; exact Hv|exact Hr']|auto with moved].
  - intros B o A d v e A1 Hd Hv Hr IH A' H. fields H.
    destruct (IH (mv_quiet _ _ H o d Hd) (r_note (ECall o) (r_put o v (r_meet o A')))) as (A1' & Hr' & H1); [auto with moved|].
    eexists. split; [eapply rbuild_err; [rewrite Fdef; exact Hd|rewrite Fs; exact Hv|exact Hr']|auto with moved].
  - intros B o A d v A1 Hd Hv Hr IH A' H. fields H.
    destruct (IH (mv_quiet _ _ H o d Hd) (r_note (ECall o) (r_put o v (r_meet o A')))) as (A1' & Hr' & H1); [auto with moved|].
    eexists. split; [eapply rbuild_panic; [rewrite Fdef; exact Hd|rewrite Fs; exact Hv|exact Hr']|auto with moved].
  - intros B u r A _ A' H. exists A'. split; [constructor|done].
  - intros B u A _ A' H. exists A'. split; [constructor|done].
  - intros B u h w k A r A1 x A2 Hg IH1 Hr IH2 Hp A' H. assert (∀ r, unasking (k r)) as Hq by (by inversion Hp; subst).
    destruct (IH1 (r_note (EResolve u w) (r_use u w (r_meet w A')))) as (A1' & Hg' & H1); [auto with moved|].
    destruct (IH2 (Hq _) (r_note (EGot u w r) A1')) as (A2' & Hr' & H2); [auto with moved|].
    exists A2'. split; [by eapply rrun_resolve|done].
  - intros B u h w k A A1 Hg IH1 Hp A' H.
    destruct (IH1 (r_note (EResolve u w) (r_use u w (r_meet w A')))) as (A1' & Hg' & H1); [auto with moved|].
    exists A1'. split; [by eapply rrun_resolve_panic|done].
  - intros B u k A v x A1 Hv Hr IH Hp A' H. assert (∀ v, unasking (k v)) as Hq by (by inversion Hp; subst). fields H. destruct (IH (Hq _) A' H) as (A1' & Hr' & H1). exists A1'. split; [|done]. eapply rrun_state; [fin|done].
  - intros B u v p A x A1 Hr IH Hp A' H. assert (unasking p) as Hq by (by inversion Hp; subst). destruct (IH Hq (r_put u v A')) as (A1' & Hr' & H1); [auto with moved|]. exists A1'. split; [by apply rrun_set|done].
  - intros B u k A x A1 Hr IH Hp A' H. inversion Hp.
  - intros B u v k A x A1 Hr IH Hp A' H. assert (∀ c, unasking (k c)) as Hq by (by inversion Hp; subst). fields H. destruct (IH (Hq _) (r_newbin A')) as (A1' & Hr' & H1); [auto with moved|]. exists A1'. split; [|done].
    apply rrun_newbin. by rewrite Fb.
  - intros B u d k A x A1 Hf Hr IH Hp A' H. assert (unasking (bd_body d) ∧ ∀ o, unasking (k o)) as Hq by (by inversion Hp; subst). fields H.
    destruct (IH (proj2 Hq _) (r_alloc d (ask' (r_tick A')) A')) as (A1' & Hr' & H1); [apply moved_alloc; [apply Hq|done]|]. exists A1'. split; [|done].
    apply rrun_new; [by eapply moved_free|by rewrite Fo].
  - intros B u w p A x A1 Hl Hn Hr IH Hp A' H. assert (unasking p) as Hq by (by inversion Hp; subst). fields H. destruct (IH Hq (r_drop w A')) as (A1' & Hr' & H1); [auto with moved|]. exists A1'. split; [|done].
    apply rrun_drop; [fin|done..].
Qed.

Definition rcalm (A : ref) (x : op) : Prop :=
  match x with
  | OAlloc d => unasking (bd_body d)
  | OPurge _ => b = false
  | OInvalidate o | OLookupMut o _ => b = true → o ∈ r_known A
  | OGc => b = true
  | _ => True
  end.
Lemma place_call x A y A1 : rcall ask kd x A y A1 → rcalm A x → msim (rcall ask' kd x) A y A1.
Proof.
  destruct place_build as (SG & SB & _).
  intros Hc Hx A' H. fields H. 
  assert (∀ o, r_deps (r_prepare o A') = r_deps (r_prepare o A) ∧ r_art (r_prepare o A') = r_art (r_prepare o A)) as Fp.
  { intros o. pose proof (moved_fields _ _ (moved_prepare o A A' H)) as (? & _ & _ & ? & _). done. }
  destruct Hc as [d A Hfr|o A Hl|h o A r A1 Hg|h o A A1 Hg|h o A Hl Hh|x o u A Hm Hkd Hl Hu Hd|o f A B Hkd Hl Hno ->
    |o f A B c Hkd Hl Hno -> Hb|o f A B c A1 Hkd Hl Hno -> Hb Hr|o f A B e A1 Hkd Hl Hno -> Hb Hr|o f A B A1 Hkd Hl Hno -> Hb Hr
    |o A Hl|o A v Hl Hv|o A d v Hl Hv Hd Hi|o A d Hl Hv Hd Hi|o f A F B d v Hl HF -> Hd Hv|o f A F B d Hl HF -> Hd Hv Hi
    |o A F Hl HF|o A F Hl HF|A|A|A F Hs HF|A Hs|o A Hl|A]; cbn in Hx.
  - eexists. rewrite <- Fo. split; [constructor; by eapply moved_free|by apply moved_alloc].
  - eexists. split; [constructor; fin|auto with moved].
  - destruct (SG _ _ _ _ _ _ Hg A' H) as (A1' & Hg' & H1). exists A1'. split; [by constructor|done].
  - destruct (SG _ _ _ _ _ _ Hg A' H) as (A1' & Hg' & H1). exists A1'. split; [by constructor|done].
  - rewrite <- Fa. exists A'. split; [constructor; [fin|done]|done].
  - exists A'. split; [eapply rc_mut_used; [exact Hm|done|fin|exact Hu|fin]|done].
  - rewrite <- (proj2 (Fp o)). eexists. split; [eapply rc_lookup_mut; [done|fin|by rewrite Fd|done]|].
    apply moved_tock, moved_spoil; [|auto with moved]. cbn. by rewrite prepare_known.
  - eexists. split; [eapply rc_get_mut_hit; [done|fin|by rewrite Fd|reflexivity|by rewrite (proj2 (Fp o))]|auto with moved].
  - destruct (SB _ _ _ _ _ Hr (r_tock (r_prepare o A'))) as (A1' & Hr' & H1); [auto with moved|].
    eexists. split; [eapply rc_get_mut; [done|fin|by rewrite Fd|reflexivity|by rewrite (proj2 (Fp o))|exact Hr']|auto with moved].
  - destruct (SB _ _ _ _ _ Hr (r_tock (r_prepare o A'))) as (A1' & Hr' & H1); [auto with moved|].
    eexists. split; [eapply rc_get_mut_err; [done|fin|by rewrite Fd|reflexivity|by rewrite (proj2 (Fp o))|exact Hr']|auto with moved].
  - destruct (SB _ _ _ _ _ Hr (r_tock (r_prepare o A'))) as (A1' & Hr' & H1); [auto with moved|].
    eexists. split; [eapply rc_get_mut_panic; [done|fin|by rewrite Fd|reflexivity|by rewrite (proj2 (Fp o))|exact Hr']|auto with moved].
  - rewrite <- Fs. eexists. split; [constructor; fin|done].
  - eexists. split; [eapply rc_dyn_state; fin|done].
  - eexists. split; [eapply rc_dyn_state_init; [fin|fin|rewrite Fdef; exact Hd|done]|auto with moved].
  - eexists. split; [eapply rc_dyn_state_panic; [fin|fin|rewrite Fdef; exact Hd|done]|auto with moved].
  - eexists. split; [eapply (rc_dyn_state_mut _ _ o f A' F); [fin|unfold r_affected; by rewrite Fd|reflexivity|rewrite Fdef; exact Hd|by rewrite Fs]|auto 10 with moved].
  - eexists. split; [eapply (rc_dyn_state_mut_panic _ _ o f A' F); [fin|unfold r_affected; by rewrite Fd|reflexivity|rewrite Fdef; exact Hd|by rewrite Fs|done]|auto 10 with moved].
  - eexists. split; [eapply (rc_invalidate _ _ o A' F); [fin|unfold r_affected; by rewrite Fd]|].
    apply moved_note, moved_tock, moved_spoil; [exact Hx|auto with moved].
  - eexists. split; [eapply (rc_purge _ _ o A' F); [fin|unfold r_affected; by rewrite Fd]|].
    apply moved_note, moved_tock, moved_spoil; [congruence|auto with moved].
  - eexists. split; [constructor|]. destruct H as [E D O S Q]. split; [rewrite E; reflexivity|exact D|exact O|exact S|exact Q].
  - eexists. split; [constructor|]. destruct H as [E D O S Q]. split; [rewrite E; reflexivity|exact D|exact O|done|exact Q].
  - eexists. split; [eapply (rc_gc _ _ A' F); [by apply (mv_stray _ _ H)|unfold r_garbage; by rewrite Fd, Fk, Fl]|auto 10 with moved].
  - destruct Hs. by apply (mv_stray _ _ H).
  - rewrite <- Fk. eexists. split; [constructor; fin|done].
  - rewrite <- Fk. eexists. split; [constructor|done].
Qed.
Lemma moved_new : moved new_ref new_ref.
Proof. split; done. Qed.
End Place.
