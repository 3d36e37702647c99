(** Properties: caches used while one another's builders are being built (C57). *)
From Verif Require Import NestFacts SeveralFacts RefLaws Demo.
From stdpp Require Import relations.

(** ** C57 *)

(** Whatever caches the builders' code uses, at whatever depth: each cache is the
    reference cache (ThreadSpec.v, NestSpec.v) in a program where, during its calls
    and between them, builders are made and dropped, bins are made, and time passes,
    and nothing else happens to it.  [own i l] are the calls on cache [i] since it was
    made, be they made by the user or by the code of a builder. *)
Theorem C57_reference E K plan code l m i :
  nruns E K plan code l m → ∃ A, tlife (e_ask E) (K i) (own i l) A ∧ shows (view i m) A.
Proof. intros H. exact (proj2 (proj1 (nruns_life E K plan code l m H) i)). Qed.
Print Assumptions C57_reference.

(** The calls panic for the reasons they do otherwise. *)
Lemma tcall_panic ask kd x A k A' : tcall ask kd x A (Panicked k) A' →
  k = PkUser ∨ (k = PkGcIndex ∧ x = OGc) ∨ (k = PkCounterpart ∧ kd = Boxed ∧ ∃ o f, x = OGetMut o f ∨ x = OLookupMut o f).
Proof.
  intros Hc. inversion Hc as [x' A0 A1 y A'' N1 N2 R Hrc| | | | | | | ]; subst; auto.
  inversion Hrc; subst; auto.
  right; right. split; [done|]. split; [done|]. match goal with Hm : mut_of _ _ |- _ => destruct Hm as [[f ->]|[f ->]]; eauto end.
Qed.
Theorem C57_panics E K plan code l m i x k :
  nruns E K plan code l m → (x, Panicked k) ∈ own i l → k = PkUser ∨ (k = PkGcIndex ∧ x = OGc).
Proof.
  intros Hr Hin. destruct (C57_reference E K plan code l m i Hr) as (A & HA & _).
  induction HA as [|h A A' HA IH R|h A x0 y A' HA IH Hc Hy]; [by apply elem_of_nil in Hin|by apply IH|].
  apply elem_of_cons in Hin as [[= <- <-]|Hin]; [|by apply IH].
  destruct (tcall_panic _ _ _ _ _ _ Hc) as [?|[?|(-> & _)]]; [by left|by right|done].
Qed.
Print Assumptions C57_panics.
Theorem C57_panics_next E K plan code l m n j x k s' w' :
  nruns E K plan code l m →
  step_n E K (build_n E K plan code n) j x (view j m) (World (m_lanes m) [] l) = NPanic k s' w' →
  k = PkUser ∨ (k = PkGcIndex ∧ x = OGc) ∨ (k = PkCounterpart ∧ K j = Boxed ∧ ∃ o f, x = OGetMut o f ∨ x = OLookupMut o f).
Proof.
  intros Hr Hs. destruct (nruns_life E K plan code l m Hr) as [Hl Hn]. destruct (Hl j) as (I & A & _ & H).
  assert (ok E K j (view j m) (World (m_lanes m) [] l)) as O.
  { split; [apply not_elem_of_nil|intros z _ _; exact (Hl z)|exact Hn]. }
  pose proof (step_n_sound E K plan (build_n E K plan code n) j x (view j m) (World (m_lanes m) [] l) A (build_n_sound E K plan code n) O I eq_refl H) as X.
  rewrite Hs in X. destruct X as (_ & A' & Hc & _). exact (tcall_panic _ _ _ _ _ _ Hc).
Qed.
Print Assumptions C57_panics_next.

(** A call, with whatever calls on other caches it leads to ([l']: those completed
    meanwhile, and itself), changes nothing of what the caches not among these
    hold. *)
Theorem C57_frame E K plan code l m n c y s' w' i :
  nruns E K plan code l m →
  act_n E K (build_n E K plan code n) c (m_rest m) (World (m_lanes m) [] l) = NDone y s' w' →
  let m' := MSt (w_lanes w') s' in
  ∃ l', w_log w' = l' ++ l ∧
    (∀ o x, objs (view i m) !! o = Some x → objs (view i m') !! o = Some x) ∧
    (i ∉ cache_of <$> l' →
      (∀ o, cached (view i m') o = cached (view i m) o) ∧ (∀ o, state_of (view i m') o = state_of (view i m) o) ∧
      (∀ o, knows (view i m') o ↔ knows (view i m) o) ∧ (∀ u w, depends (view i m') u w ↔ depends (view i m) u w) ∧
      trace (view i m') = trace (view i m)).
Proof.
  intros Hr Ha m'. destruct (nruns_life E K plan code l m Hr) as [Hl Hn].
  destruct (call_sound_n E K plan _ (build_n_sound E K plan code n) c (m_rest m) (World (m_lanes m) [] l) y s' w') as [B F (l' & L & M & Nn) P Q]; [intros z _; apply Hl|done|done|].
  exists l'. split; [done|]. destruct (Q Shared (Hn Shared)) as [_ Hob]. split; [exact Hob|]. intros Hi.
  assert (lane_of m' i = lane_of m i) as Hlane by (apply (Nn i); [apply not_elem_of_nil|done]).
  destruct (Hl i) as (I & _).
  assert (ch (view i m') = ch (view i m)) as Hch by (unfold view; cbn; by rewrite Hlane).
  assert (objs (view i m) ⊆ objs (view i m')) as Hsub by (apply map_subseteq_spec; exact Hob).
  destruct (frame (view i m) (view i m') I Hch Hsub) as (F1 & F2 & F3 & F4). split_and!; try done.
  unfold view; cbn. by rewrite Hlane.
Qed.
Print Assumptions C57_frame.

(** [get] of an artifact in the cache returns it: no builder is called, no other
    cache is used, and no cache changes. *)
Theorem C57_hit E K plan code l m n j h o b y s' w' :
  nruns E K plan code l m → cached (view j m) o = Some b →
  act_n E K (build_n E K plan code n) (NCall j (OGet h o)) (m_rest m) (World (m_lanes m) [] l) = NDone y s' w' →
  y = Returned (OutRes (conv h b)) ∧ w_log w' = MCall j (OGet h o) y :: l ∧
  ∀ i, view i (MSt (w_lanes w') s') = view i m.
Proof.
  intros Hr Hc. destruct (nruns_life E K plan code l m Hr) as [Hl _]. destruct (Hl j) as (I & _). change (seen (lane_of m j) [] (m_rest m)) with (view j m) in I.
  cbn [act_n w_busy]. rewrite bool_decide_eq_false_2 by apply not_elem_of_nil.
  change (look j [] (m_rest m) _) with (view j m). cbn [step_n]. unfold get_n.
  destruct (promise o (view j m)) as [[d a]|] eqn:Hp; [|done]. destruct (how_legal _ _); [|done].
  rewrite (lookup_art_ok _ o (view j m) d a I Hp). pose proof (live_cached (view j m) o d a I Hp) as Hca. rewrite Hc in Hca.
  destruct (artifacts (ch (view j m)) !! a) as [e|]; [|done]. cbn in Hca. injection Hca as ->.
  cbn [nbind]. intros [= <- <- <-]. split; [done|]. split; [done|]. intros i. unfold view, lane_of. cbn.
  destruct (decide (i = j)) as [->|Hi].
  - rewrite lookup_insert. cbn. done.
  - by rewrite lookup_insert_ne.
Qed.
Print Assumptions C57_hit.

(** A cache that is in the middle of a call cannot be used by the code of its
    builders: the model has no such run ([&mut self]). *)

(** Not vacuous: cache 2 builds builder 2, whose code asks cache 0 for the artifact
    of builder 1, whose code asks cache 1 for the artifact of builder 0.
    Such uses are not dependencies: what cache 2 made of an artifact of cache 0 stays
    when that one is invalidated, and so does the artifact of cache 0 when cache 1 is
    emptied. *)
Definition d_seven : bdef := BDef 1 0 (Some VUnit) (PNewBin (VNum 7) (λ b, PRet (Ok b))).
Definition d_asker : bdef := BDef 2 0 (Some VUnit) (PAsk (λ n, PNewBin (VNum (n + 1)) (λ b, PRet (Ok b)))).
Definition plan_n (t : nat) : option ncall :=
  match t with 3 => Some (NCall 0 (OGet HRef 1%N)) | 4 => Some (NCall 1 (OGet HRef 0%N)) | _ => None end.
Definition code_n (y : answer) : N :=
  match y with Returned (OutRes (RvVal (VNum n))) => n | _ => 0%N end.
Definition env_n : env :=
  Env (λ t, match t with 6%nat => 7 | 8%nat => 8 | _ => 100 + N.of_nat t end)%N (e_prio env_s) true Shared.
Fixpoint nrun (n : nat) (l : list ncall) (h : list mevent) (m : mst) : option (list mevent * mst) :=
  match l with
  | [] => Some (h, m)
  | c :: l =>
    match act_n env_n (λ _, Shared) (build_n env_n (λ _, Shared) plan_n code_n n) c (m_rest m) (World (m_lanes m) [] h) with
    | NDone _ s' w' => nrun n l (w_log w') (MSt (w_lanes w') s')
    | _ => None
    end
  end.
Lemma nrun_nruns n l h m h' m' :
  nruns env_n (λ _, Shared) plan_n code_n h m → nrun n l h m = Some (h', m') → nruns env_n (λ _, Shared) plan_n code_n h' m'.
Proof.
  revert h m. induction l as [|c l IH]; intros h m Hm; cbn [nrun]; [by intros [= <- <-]|].
  destruct (act_n _ _ _ _ _ _) as [y s' w'| |] eqn:Ha; try done. apply IH. by eapply nruns_act.
Qed.
Definition nest_ops : list ncall :=
  [NCall 0 (OAlloc d_seven); NCall 0 (OAlloc d_asker); NCall 0 (OAlloc d_asker);
   NCall 2 (OGet HRef 2%N); NCall 0 (OGet HRef 1%N); NCall 1 (OGet HRef 0%N)].
Definition nest_end : list mevent * mst :=
  match nrun 9 nest_ops [] m_init with Some r => r | None => ([], m_init) end.
Definition nest_more : list mevent * mst :=
  match nrun 9 (nest_ops ++ [NCall 0 (OInvalidate 1%N); NCall 1 OClearAll; NDrop 1; NCall 2 (OLookup HRef 2%N); NCall 0 (OLookup HRef 1%N)]) [] m_init with
  | Some r => r | None => ([], m_init) end.
Theorem C57_applies :
  nruns env_n (λ _, Shared) plan_n code_n nest_end.1 nest_end.2 ∧
  nest_end.1 =
    [MCall 1 (OGet HRef 0%N) (Returned (OutRes (RvVal (VNum 7)))); MCall 0 (OGet HRef 1%N) (Returned (OutRes (RvVal (VNum 8))));
     MCall 2 (OGet HRef 2%N) (Returned (OutRes (RvVal (VNum 9)))); MCall 0 (OGet HRef 1%N) (Returned (OutRes (RvVal (VNum 8))));
     MCall 1 (OGet HRef 0%N) (Returned (OutRes (RvVal (VNum 7)))); MCall 0 (OAlloc d_asker) (Returned (OutObj 2%N));
     MCall 0 (OAlloc d_asker) (Returned (OutObj 1%N)); MCall 0 (OAlloc d_seven) (Returned (OutObj 0%N))].
Proof.
  split; [|by vm_compute]. unfold nest_end. destruct (nrun _ _ _ _) as [[h m]|] eqn:H; [|constructor].
  eapply nrun_nruns; [constructor|exact H].
Qed.
Print Assumptions C57_applies.
Theorem C57_untracked :
  nruns env_n (λ _, Shared) plan_n code_n nest_more.1 nest_more.2 ∧
  take 5 nest_more.1 =
    [MCall 0 (OLookup HRef 1%N) (Returned (OutOpt None)); MCall 2 (OLookup HRef 2%N) (Returned (OutOpt (Some (RvVal (VNum 9)))));
     MDrop 1; MCall 1 OClearAll (Returned OutUnit); MCall 0 (OInvalidate 1%N) (Returned OutUnit)].
Proof.
  split; [|by vm_compute]. unfold nest_more. destruct (nrun _ _ _ _) as [[h m]|] eqn:H; [|constructor].
  eapply nrun_nruns; [constructor|exact H].
Qed.
Print Assumptions C57_untracked.
