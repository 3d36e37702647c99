(** C36: what the doctors write. *)
From Verif Require Import DocFacts.
From Verif Require Import Demo Props2 Props3 LogFacts DepFacts PlayFacts.
From Coq Require Import String.
Local Notation length := List.length.

(** ** [VisgraphDoc] *)

(** Whatever happens to the cache: if the text of each artifact built can stand
    between double quotes, then the doctor writes a DOT document, both when ended
    by [into_inner] and by being dropped, and it is read as the graph of the
    events. *)
Theorem C36_document pr o l :
  (∀ i b a, l !! i = Some (DBuild b a) → ∃ x, dot_string (artifact_text o (take i l) a) x) →
  ∃ t, vd_document pr o l = Some t ∧ vd_document_dropped pr o l = Some t ∧ read_dot t = Some (events_graph pr o l).
Proof.
  intros Hf. destruct (document_eq pr o l) as [H1 H2]. eexists. split; [exact H1|]. split; [exact H2|].
  apply read_document. apply Forall_forall. intros [p e] Hin. apply elem_of_list_lookup in Hin as [i Hi].
  destruct (with_past_lookup _ _ _ _ _ Hi) as [He Hp]. cbn in Hp. subst p. unfold labels_fit. cbn. destruct e; try done. by eapply Hf.
Qed.
Print Assumptions C36_document.

(** This is so if neither type names nor [Debug] texts of artifacts have quotes or
    backslashes; the latter do not matter if artifact values are not shown.
    Then the label is read, and shown, as it is. *)
Definition unquoted (t : text) : Prop := 34%N ∉ t ∧ 92%N ∉ t.
Lemma unquoted_plain t : unquoted t ↔ plain t.
Proof.
  unfold unquoted, plain, plain_char. rewrite Forall_forall. split; [|set_solver].
  intros [H1 H2] c Hc. split; intros ->; done.
Qed.
Theorem C36_artifact_label o past a :
  unquoted (ah_type a) → (vo_artifact_values o = true → unquoted (ah_dbg a)) →
  dot_string (artifact_text o past a) (artifact_text o past a) ∧ shown (artifact_text o past a) = artifact_text o past a.
Proof.
  rewrite !unquoted_plain. intros Ht Hd. assert (plain (artifact_text o past a)) as Hp.
  { unfold artifact_text. rewrite !plain_app. split_and!; try apply plain_num; try done; try pl.
    destruct (vo_artifact_values o); [|apply plain_nil]. rewrite !plain_app. split_and!; try pl. by apply Hd. }
  split; [by apply plain_dot_string|]. apply shown_plain. by apply unquoted_plain in Hp as [_ ?].
Qed.
Print Assumptions C36_artifact_label.

(** The text of a builder may be anything.  If all its characters are printable
    or line breaks, the label is shown as that text. *)
Theorem C36_builder_label pr s :
  (∃ x, dot_string (esc pr s) x) ∧
  ((∀ c, c ∈ s → c = 10%N ∨ (pr c = true ∧ c ≠ 0 ∧ c ≠ 9 ∧ c ≠ 13)%N) → shown (read_str (esc pr s)) = s).
Proof.
  split; [eexists; apply dot_string_esc|]. intros H. rewrite (read_str_ok _ _ (dot_string_esc pr s)). by apply shown_esc.
Qed.
Print Assumptions C36_builder_label.

(** No two builds get the same number (generation and instance), over the whole
    life of a doctor ([VisgraphDoc] and [TextualDoc]); so each artifact built gets
    its own node, over the whole life of the doctor,
    different from the nodes of builders, which are those of the ids. *)
Theorem C36_numbers l i j b a b' a' :
  l !! i = Some (DBuild b a) → l !! j = Some (DBuild b' a') →
  ((generation (take i l), instance_no (take i l)) = (generation (take j l), instance_no (take j l)) ↔ i = j).
Proof.
  intros Hi Hj. split; [|by intros ->]. intros H.
  assert (∀ i j b a, l !! i = Some (DBuild b a) → i < j → 
    (generation (take i l), instance_no (take i l)) ≠ (generation (take j l), instance_no (take j l))) as Hlt.
  { clear. intros i j b a Hi Hlt. pose proof (take_drop_middle _ _ _ Hi) as Hl.
    assert (take j l = take i l ++ DBuild b a :: take (j - S i) (drop (S i) l)) as ->; [|apply number_unique].
    assert (length (take i l) = i) as Hlen by (apply take_length_le; apply lookup_lt_Some in Hi; lia).
    rewrite <- Hl at 1. rewrite take_app_ge by lia. rewrite Hlen. replace (j - i) with (S (j - S i)) by lia. done. }
  destruct (Nat.lt_trichotomy i j) as [Hlt'|[->|Hlt']]; [|done|]; exfalso.
  - by apply (Hlt i j b a Hi Hlt').
  - by apply (Hlt j i b' a' Hj Hlt').
Qed.
Print Assumptions C36_numbers.
Theorem C36_artifact_names l i j b a b' a' :
  l !! i = Some (DBuild b a) → l !! j = Some (DBuild b' a') →
  (artifact_node (take i l) a = artifact_node (take j l) a' ↔ i = j).
Proof.
  intros Hi Hj. split; [|intros <-; congruence]. intros H. apply node_number in H as (H1 & H2 & _).
  apply (C36_numbers l i j b a b' a' Hi Hj). by rewrite H1, H2.
Qed.
Print Assumptions C36_artifact_names.
Theorem C36_builder_names b b' past a :
  (builder_node b = builder_node b' ↔ bh_id b = bh_id b') ∧ builder_node b ≠ artifact_node past a.
Proof.
  split; [|apply node_differs]. unfold builder_node. split; [apply fmt_ptr_inj|congruence].
Qed.
Print Assumptions C36_builder_names.

(** The edges of the graph are exactly the events. *)
Theorem C36_edges pr o l a b at' :
  SEdge a b at' ∈ g_stmts (events_graph pr o l) ↔
  (∃ i x y, l !! i = Some (DResolve x y) ∧ a = builder_node x ∧ b = builder_node y ∧ at' = []) ∨
  (∃ i x y, l !! i = Some (DBuild x y) ∧ a = builder_node x ∧ b = artifact_node (take i l) y ∧ at' = [(lit "arrowhead", lit "none")]).
Proof.
  cbn [g_stmts events_graph]. rewrite elem_of_cons, elem_of_list_bind. split.
  - intros [?|([p e] & Hin & Hx)]; [done|]. apply elem_of_list_lookup in Hx as [i Hi].
    destruct (with_past_lookup _ _ _ _ _ Hi) as [He Hp]. cbn in Hp. subst p.
    destruct e as [x y|x y| |x]; cbn in Hin; rewrite ?elem_of_cons, elem_of_nil in Hin.
    + left. exists i, x, y. by destruct Hin as [?|[?|[?|?]]]; simplify_eq.
    + right. exists i, x, y. by destruct Hin as [?|[?|[?|?]]]; simplify_eq.
    + done.
    + done.
  - intros [(i & x & y & Hi & -> & -> & ->)|(i & x & y & Hi & -> & -> & ->)]; right.
    + exists (take i l, DResolve x y). split; [cbn; rewrite !elem_of_cons; auto|].
      apply elem_of_list_lookup. exists i. by apply with_past_intro.
    + exists (take i l, DBuild x y). split; [cbn; rewrite !elem_of_cons; auto|].
      apply elem_of_list_lookup. exists i. by apply with_past_intro.
Qed.
Print Assumptions C36_edges.

(** *** The texts of artifacts are not escaped *)

(** A [String] as artifact, with the default options: the text is not DOT. *)
Definition ascii_printable (c : N) : bool := (32 <=? c)%N && (c <? 127)%N.
Definition some_builder : bhandle := BHandle 255 (lit "my::Builder") (lit "Builder").
Definition art_of (dbg : text) : ahandle := AHandle 17 (lit "alloc::string::String") dbg.
Theorem C36_quotes_refuted : ∃ dbg t,
  vd_document ascii_printable vd_default [DBuild some_builder (art_of dbg)] = Some t ∧ read_dot t = None.
Proof. exists (lit """a"""). eexists. split; [vm_compute; reflexivity|]. vm_compute. reflexivity. Qed.
Print Assumptions C36_quotes_refuted.
(** And it may be DOT, but with nodes of which there was never talk. *)
Theorem C36_injection_refuted : ∃ dbg t g x,
  vd_document ascii_printable vd_default [DBuild some_builder (art_of dbg)] = Some t ∧ read_dot t = Some g ∧
  SNode (lit "0xbad") x ∈ g_stmts g ∧ SNode (lit "0xbad") x ∉ g_stmts (events_graph ascii_printable vd_default [DBuild some_builder (art_of dbg)]).
Proof.
  exists (lit "a""] ""0xbad"" [label = ""evil"). eexists _, _, [(lit "label", lit "evil"); (lit "shape", lit "box")].
  split; [vm_compute; reflexivity|]. split; [vm_compute; reflexivity|]. split.
  - cbn. right. right. right. left.
  - vm_compute. intros H. repeat (apply elem_of_cons in H as [H|H]; [done|]). by apply elem_of_nil in H.
Qed.
Print Assumptions C36_injection_refuted.

(** *** Together with the cache *)

(** The events [l] (oldest first) are what the doctor of [s] was told, with any
    type names and [Debug] texts. *)
Definition tells (s : st) (e : event) (e' : devent) : Prop :=
  match e, e' with
  | EResolve u w, DResolve x y => (∃ d, at_addr s u d (bh_id x)) ∧ ∃ d, at_addr s w d (bh_id y)
  | EBuilt u b, DBuild x y => (∃ d, at_addr s u d (bh_id x)) ∧ ah_ptr y = bin_ptr b
  | EInvalidate o, DInvalidate x => ∃ d, at_addr s o d (bh_id x)
  | EClear, DClear => True
  | _, _ => False
  end.
Definition heard (s : st) (l : list devent) : Prop := Forall2 (tells s) (rev (doctor_log s)) l.

(** Whatever happened to the cache: the document shows all dependencies there are,
    and a node for each artifact there is. *)
Theorem C36_graph_covers_cache E s pr o l :
  reachable E s → heard s l →
  (∀ u w du dw a b, depends s u w → at_addr s u du a → at_addr s w dw b →
     SEdge (fmt_ptr a) (fmt_ptr b) [] ∈ g_stmts (events_graph pr o l)) ∧
  (∀ u d a b, cached s u = Some b → at_addr s u d a →
     ∃ g i, let name := fmt_num g ++ lit "." ++ fmt_num i ++ lit "-" ++ fmt_ptr (bin_ptr b) in
       (∃ x, SNode name x ∈ g_stmts (events_graph pr o l)) ∧
       SEdge (fmt_ptr a) name [(lit "arrowhead", lit "none")] ∈ g_stmts (events_graph pr o l)).
Proof.
  intros Hr Hh.
  assert (∀ e, e ∈ trace s → told e = true → ∃ i e', l !! i = Some e' ∧ tells s e e') as Hl.
  { intros e He Ht. assert (e ∈ rev (doctor_log s)) as Hin.
    { apply elem_of_list_In, in_rev. rewrite rev_involutive. apply elem_of_list_In.
      unfold doctor_log. apply elem_of_list_filter. done. }
    apply elem_of_list_lookup in Hin as [i Hi]. destruct (Forall2_lookup_l _ _ _ _ _ Hh Hi) as (e' & He' & Hte). eauto. }
  split.
  - intros u w du dw a b Hd Hu Hw.
    assert (EResolve u w ∈ trace s) as He.
    { apply (depends_history E any_op) in Hd as (s0 & n & x & s1 & l0 & l1 & Hr0 & _ & Hg & Ht & Hin & Hrs); [|done].
      destruct (reach_Inv E any_op s0 Hr0) as [I0 Hst0].
      destruct (runs_trace _ _ _ _ _ (goes_Inv E n x s0 s1 I0 Hst0 Hg) eq_refl Hrs) as [l2 Hl2]. rewrite Hl2. cbn. rewrite Ht. set_solver. }
    destruct (Hl _ He eq_refl) as (i & e' & Hi & Hte). destruct e' as [x y|x y| |x]; try done. destruct Hte as [[d1 H1] [d2 H2]].
    apply C36_edges. left. exists i, x, y. unfold at_addr, builder_node in *. split_and!; [done|congruence..|done].
  - intros u d a b Hc Hu. destruct (reach_all_built E any_op s Hr u b Hc) as (l1 & b' & l2 & Ht & _ & _ & Hp & _).
    assert (EBuilt u b' ∈ trace s) as He by (rewrite Ht; set_solver).
    destruct (Hl _ He eq_refl) as (i & e' & Hi & Hte). destruct e' as [x y|x y| |x]; try done. destruct Hte as [[d1 H1] H2].
    exists (generation (take i l)), (instance_no (take i l)). cbn zeta.
    assert (fmt_num (generation (take i l)) ++ lit "." ++ fmt_num (instance_no (take i l)) ++ lit "-" ++ fmt_ptr (bin_ptr b) =
      artifact_node (take i l) y) as ->. { unfold artifact_node. congruence. }
    split.
    + eexists. cbn [events_graph g_stmts]. right. apply elem_of_list_bind. exists (take i l, DBuild x y). split.
      * cbn. right. left.
      * apply elem_of_list_lookup. exists i. by apply with_past_intro.
    + apply C36_edges. right. exists i, x, y. unfold at_addr, builder_node in *. split_and!; [done|congruence|done|done].
Qed.
Print Assumptions C36_graph_covers_cache.

(** But a node may stand for several builders: the address of a builder that was
    dropped is used again. *)
Theorem C36_builder_nodes_refuted : ∃ E s l u w b b' x y x' y',
  reachable E s ∧ heard s l ∧ u ≠ w ∧ doctor_log s = [EBuilt w b'; EBuilt u b] ∧
  l = [DBuild x y; DBuild x' y'] ∧ builder_node x = builder_node x'.
Proof.
  set (h := BHandle 100 [] []). exists env_reuse, (after env_reuse 10 reuse_ops), [DBuild h (AHandle 0 [] []); DBuild h (AHandle 1 [] [])].
  assert (doctor_log (after env_reuse 10 reuse_ops) = [EBuilt 1 (Bin 1 (VNum 2)); EBuilt 0 (Bin 0 (VNum 1))]) as Hl by (vm_compute; reflexivity).
  exists 0%N, 1%N, (Bin 0 (VNum 1)), (Bin 1 (VNum 2)). eexists _, _, _, _. split; [apply after_reachable|]. split.
  - unfold heard. rewrite Hl. cbn [rev app].
    constructor; [|constructor; [|constructor]].
    1, 2: (split; [eexists; unfold at_addr; vm_compute; reflexivity|done]).
  - split_and!; [done|done|reflexivity|done].
Qed.
Print Assumptions C36_builder_nodes_refuted.

(** ** [TextualDoc] *)

(** If nothing is invalidated, and no text has a line break, there is one line per
    event. *)
Theorem C36_text_lines o l :
  (∀ i e, l !! i = Some e → is_invalidate e = false ∧ 10%N ∉ event_line o (take i l, e)) →
  lines (td_document o l) = event_line o <$> with_past [] l.
Proof.
  intros H. unfold td_document, td_new. pose proof (td_out o l [] []) as Ht. change (generation [], instance_no []) with (0%N, 0%N) in Ht.
  rewrite Ht. clear Ht. cbn [app].
  assert (Forall (λ x, is_invalidate x.2 = false ∧ 10%N ∉ event_line o x) (with_past [] l)) as Hf.
  { apply Forall_forall. intros [p e] Hin. apply elem_of_list_lookup in Hin as [i Hi].
    destruct (with_past_lookup _ _ _ _ _ Hi) as [He Hp]. cbn in Hp. subst p. by apply H. }
  induction Hf as [|x xs [H1 H2] _ IH]; [done|]. cbn [mbind list_bind fmap list_fmap]. rewrite H1, <- app_assoc. cbn [app].
  unfold lines. rewrite (lines_app _ _ H2). cbn [app]. by rewrite <- IH.
Qed.
Print Assumptions C36_text_lines.

(** In general: the document is the entries one after the other, and only those of
    invalidations lack the line break. *)
Theorem C36_text_document o l :
  td_document o l = with_past [] l ≫= λ x, event_line o x ++ (if is_invalidate x.2 then [] else [10%N]).
Proof.
  unfold td_document, td_new. pose proof (td_out o l [] []) as Ht. change (generation [], instance_no []) with (0%N, 0%N) in Ht.
  by rewrite Ht.
Qed.
Print Assumptions C36_text_document.
(** So an invalidation always shares its line with the next event. *)
Theorem C36_text_invalidate_refuted o b e :
  is_invalidate e = false → 10%N ∉ event_line o ([], DInvalidate b) → 10%N ∉ event_line o ([DInvalidate b], e) →
  lines (td_document o [DInvalidate b; e]) = [event_line o ([], DInvalidate b) ++ event_line o ([DInvalidate b], e)].
Proof.
  intros He H1 H2. rewrite C36_text_document. cbn [with_past mbind list_bind snd is_invalidate app]. rewrite He, !app_nil_r, app_assoc.
  unfold lines. rewrite lines_app; [done|]. set_solver.
Qed.
Print Assumptions C36_text_invalidate_refuted.

(** ** Concrete cases *)

Definition leaf_b : bhandle := BHandle 255 (lit "Leaf<""a\"">") (lit "x").
Definition top_b : bhandle := BHandle 4096 (lit "Top") (lit "y").
Definition num_a : ahandle := AHandle 17 (lit "i32") (lit "5").
Definition some_events : list devent := [DResolve top_b leaf_b; DBuild leaf_b num_a; DInvalidate leaf_b; DBuild top_b num_a].
Example C36_applies :
  (∀ i b a, some_events !! i = Some (DBuild b a) → ∃ x, dot_string (artifact_text vd_default (take i some_events) a) x) ∧
  ∃ t, vd_document ascii_printable vd_default some_events = Some t ∧
    read_dot t = Some (Graph true true
      [SDefault (lit "graph") [(lit "labeljust", lit "l")];
       SNode (lit "0x1000") [(lit "label", lit "Top")]; SNode (lit "0xff") [(lit "label", lit "Leaf<""a\\"">")];
       SEdge (lit "0x1000") (lit "0xff") [];
       SNode (lit "0xff") [(lit "label", lit "Leaf<""a\\"">")];
       SNode (lit "0.0-0x11") [(lit "label", lit "#0.0 i32 :" ++ [10%N] ++ lit "5"); (lit "shape", lit "box")];
       SEdge (lit "0xff") (lit "0.0-0x11") [(lit "arrowhead", lit "none")];
       SNode (lit "0x1000") [(lit "label", lit "Top")];
       SNode (lit "1.0-0x11") [(lit "label", lit "#1.0 i32 :" ++ [10%N] ++ lit "5"); (lit "shape", lit "box")];
       SEdge (lit "0x1000") (lit "1.0-0x11") [(lit "arrowhead", lit "none")]]).
Proof.
  split.
  - intros i b a Hi. assert (a = num_a) as ->.
    { do 4 (destruct i as [|i]; [cbn in Hi; congruence|]). by destruct i. }
    eexists. apply C36_artifact_label; [|intros _]; apply unquoted_plain; pl.
  - eexists. split; [vm_compute; reflexivity|]. vm_compute. reflexivity.
Qed.
Definition text_opts : topts := TOpts false true false (λ t, t).
Example C36_text_applies :
  (let l := [DResolve top_b leaf_b; DBuild leaf_b num_a; DClear; DBuild top_b num_a] in
   (∀ i e, l !! i = Some e → is_invalidate e = false ∧ 10%N ∉ event_line text_opts (take i l, e)) ∧
   lines (td_document text_opts l) = lit <$>
     ["resolves Top -> Leaf<""a\"">"; "built #0.0  Leaf<""a\""> => 5"; "Clears generation #0"; "built #1.0  Top => 5"]%string) ∧
  lines (td_document text_opts [DInvalidate leaf_b; DBuild top_b num_a]) = lit <$>
     ["Invalidates generation #0 targeting Leaf<""a\"">built #1.0  Top => 5"]%string.
Proof.
  split; [|vm_compute; reflexivity]. cbn zeta. split; [|vm_compute; reflexivity]. intros i e Hi.
  do 4 (destruct i as [|i]; [cbn in Hi; injection Hi as <-; (split; [done|]); apply (bool_decide_unpack _); vm_compute; exact I|]).
  by destruct i.
Qed.
