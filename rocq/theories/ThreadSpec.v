(** The reference cache (Reference.v) while other threads run.

    Others only make and drop builders, make bins and take time, and they do so only
    at certain points: before a call, before each thing a builder's code does, and
    before the cache looks for the artifact to be returned by [get] or [resolve].
    Garbage collection collects what was garbage when it was called, and some of what
    has become garbage since. *)
From Verif Require Export Reference Threads.
From stdpp Require Import relations.

Section ThreadSpec.
Context (ask : nat → N) (kd : kind).

(** What others can do; [B]: borrowed builders. *)
Inductive r_act (B : list obj) : ref → ref → Prop :=
| ra_new d A : r_free A (ask (r_tick A)) → r_act B A (r_alloc d (ask (r_tick A)) A)
| ra_drop w A : w ∈ r_live A → w ∉ B → r_act B A (r_tock (r_drop w A))
| ra_bin A : r_act B A (r_tock (r_newbin A))
| ra_sleep A : r_act B A (r_tock A).
Definition r_others (B : list obj) : ref → ref → Prop := rtc (r_act B).

(** As [rget], [rbuild], [rrun], with the rules [tget_others] and [trun_others]. *)
Inductive tget : list obj → how → obj → ref → option rval → ref → Prop :=
| tget_others B h o A A1 x A' :
    o ∈ r_live A → r_others (o :: B) A A1 → tget B h o A1 x A' → tget B h o A x A'
| tget_hit B h o A b :
    o ∈ r_live A → r_legal kd h → r_art A !! o = Some b →
    tget B h o A (Some (conv h b)) A
| tget_built B h o A b A' :
    o ∈ r_live A → r_legal kd h → r_art A !! o = None → tbuild B o A (Some (Ok b)) A' →
    tget B h o A (Some (conv h b)) A'
| tget_failed B h o A e A' :
    o ∈ r_live A → r_legal kd h → r_art A !! o = None → tbuild B o A (Some (Err e)) A' →
    tget B h o A (Some (RvErr e)) A'
| tget_panicked B h o A A' :
    o ∈ r_live A → r_legal kd h → r_art A !! o = None → tbuild B o A None A' →
    tget B h o A None A'
with tbuild : list obj → obj → ref → option result → ref → Prop :=
| tbuild_noinit B o A d :
    r_def A o = Some d → r_state A !! o = None → bd_init d = None →
    tbuild B o A None (r_meet o A)
| tbuild_ok B o A d v b A' :
    r_def A o = Some d → (r_state A !! o = Some v ∨ r_state A !! o = None ∧ bd_init d = Some v) →
    trun (o :: B) o (bd_body d) (r_note (ECall o) (r_put o v (r_meet o A))) (Some (Ok b)) A' →
    tbuild B o A (Some (Ok b)) (r_note (EBuilt o b) (r_store o b A'))
| tbuild_err B o A d v e A' :
    r_def A o = Some d → (r_state A !! o = Some v ∨ r_state A !! o = None ∧ bd_init d = Some v) →
    trun (o :: B) o (bd_body d) (r_note (ECall o) (r_put o v (r_meet o A))) (Some (Err e)) A' →
    tbuild B o A (Some (Err e)) (r_note (EFailed o e) A')
| tbuild_panic B o A d v A' :
    r_def A o = Some d → (r_state A !! o = Some v ∨ r_state A !! o = None ∧ bd_init d = Some v) →
    trun (o :: B) o (bd_body d) (r_note (ECall o) (r_put o v (r_meet o A))) None A' →
    tbuild B o A None A'
with trun : list obj → obj → prog → ref → option result → ref → Prop :=
| trun_others B u p A A1 x A' :
    r_others B A A1 → trun B u p A1 x A' → trun B u p A x A'
| trun_ret B u r A : trun B u (PRet r) A (Some r) A
| trun_panic B u A : trun B u PPanic A None A
| trun_resolve B u h w k A r A1 x A2 :
    tget B h w (r_note (EResolve u w) (r_use u w (r_meet w A))) (Some r) A1 →
    trun B u (k r) (r_note (EGot u w r) A1) x A2 →
    trun B u (PResolve h w k) A x A2
| trun_resolve_panic B u h w k A A1 :
    tget B h w (r_note (EResolve u w) (r_use u w (r_meet w A))) None A1 →
    trun B u (PResolve h w k) A None A1
| trun_state B u k A v x A' :
    r_state A !! u = Some v → trun B u (k v) A x A' → trun B u (PState k) A x A'
| trun_set B u v p A x A' :
    trun B u p (r_put u v A) x A' → trun B u (PSetState v p) A x A'
| trun_ask B u k A x A' :
    trun B u (k (ask (r_tick A))) (r_tock A) x A' → trun B u (PAsk k) A x A'
| trun_newbin B u v k A x A' :
    trun B u (k (Bin (r_nbin A) v)) (r_newbin A) x A' → trun B u (PNewBin v k) A x A'
| trun_new B u d k A x A' :
    r_free A (ask (r_tick A)) → trun B u (k (r_nobj A)) (r_alloc d (ask (r_tick A)) A) x A' →
    trun B u (PNew d k) A x A'
| trun_drop B u w p A x A' :
    w ∈ r_live A → w ∉ B → trun B u p (r_drop w A) x A' → trun B u (PDrop w p) A x A'.

(** [F] is garbage now ([A1]), and contains what was garbage before ([A]). *)
Definition r_garbage_since (A A1 : ref) (F : gset obj) : Prop :=
  (∀ w, w ∈ F → w ∈ r_known A1 ∧ w ∉ r_live A1 ∧ ∀ u, (u, w) ∉ r_deps A1) ∧
  (∀ w, w ∈ r_known A → w ∉ r_live A → (∀ u, (u, w) ∉ r_deps A) → w ∈ F).

(** The calls: what others do in the meantime, then the call of the reference
    cache, but for the calls that take longer. *)
Inductive tcall : op → ref → answer → ref → Prop :=
| tc_call x A A1 y A' :
    (∀ h o, x ≠ OGet h o) → x ≠ OGc → r_others (borrows x) A A1 → rcall ask kd x A1 y A' → tcall x A y A'
| tc_get h o A A1 r A' : r_others [o] A A1 → tget [] h o A1 (Some r) A' → tcall (OGet h o) A (Returned (OutRes r)) A'
| tc_get_panic h o A A1 A' : r_others [o] A A1 → tget [] h o A1 None A' → tcall (OGet h o) A (Panicked PkUser) A'
| tc_get_mut o f A A0 A1 b A' :
    r_others [o] A A0 → kd = Boxed → o ∈ r_live A0 → (∀ u, (u, o) ∈ r_deps A0 → u = o) → A1 = r_prepare o A0 →
    r_art A1 !! o = None → tbuild [] o (r_tock A1) (Some (Ok b)) A' →
    tcall (OGetMut o f) A (Returned (OutRes (RvVal (bin_val b)))) (r_write o f A')
| tc_get_mut_err o f A A0 A1 e A' :
    r_others [o] A A0 → kd = Boxed → o ∈ r_live A0 → (∀ u, (u, o) ∈ r_deps A0 → u = o) → A1 = r_prepare o A0 →
    r_art A1 !! o = None → tbuild [] o (r_tock A1) (Some (Err e)) A' →
    tcall (OGetMut o f) A (Returned (OutRes (RvErr e))) A'
| tc_get_mut_panic o f A A0 A1 A' :
    r_others [o] A A0 → kd = Boxed → o ∈ r_live A0 → (∀ u, (u, o) ∈ r_deps A0 → u = o) → A1 = r_prepare o A0 →
    r_art A1 !! o = None → tbuild [] o (r_tock A1) None A' →
    tcall (OGetMut o f) A (Panicked PkUser) A'
| tc_gc A A1 F A2 :
    r_stray A = ∅ → r_others [] A A1 → r_garbage_since A A1 F → r_others [] (r_unknow F (r_forget F A1)) A2 →
    tcall OGc A (Returned OutUnit) (r_tock A2)
| tc_gc_panic A A1 : r_stray A ≠ ∅ → r_others [] A A1 →
    tcall OGc A (Panicked PkGcIndex) (r_tock A1).

Inductive truns : list (op * answer) → ref → Prop :=
| truns_nil : truns [] new_ref
| truns_call l A x y A' :
    truns l A → tcall x A y A' → y ≠ Panicked PkCounterpart → truns ((x, y) :: l) A'.
End ThreadSpec.
