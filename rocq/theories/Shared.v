(** Owned histories (Owned.v) while others hold blueprints too: other threads (the
    [Arc] variants, src/arc.rs and src/boxed.rs), and doctors that keep the
    [BuilderHandle]s they are given, each of which holds a count
    (src/diagnostics/mod.rs:188-214).

    In Threads.v others drop builders at whim, and what clashes with that is
    [Illegal].  Here they hold blueprints, drop those, make builders with the
    blueprints they hold in the fields, and are given blueprints by the user, by the
    code of builders, or by the cache; a builder is dropped exactly when nobody holds
    a blueprint of it, and that nothing dropped is used is a theorem (C60).

    Simplifications: as in Owned.v; others are given whatever they reach for, as long
    as it is alive; a builder's code is given blueprints by what it resolves and by its
    own state, not by other threads. *)
From Verif Require Export Owned.

(** What others do: [Blueprint::new] (if they hold what is to be in its fields), drop
    blueprints, be given blueprints, make a bin, take time. *)
Inductive sact := XNew (d : bdef) | XLose (X : gset obj) | XTake (X : gset obj) | XBin | XSleep.

Section Shared.
Context (E : env) (fields : bdef → gset obj) (keep : prog → gset obj → gset obj) (T : nat → list sact).
Notation settled_down := (settled_down fields).
Notation locals := (locals keep).

(** [V]: what the others hold.  When the allocator does not give a free address (it
    always does), the run is cut short ([NoFuel]). *)
Definition act_s (x : sact) (V : gset obj) (s : st) : outcome (gset obj) :=
  match x with
  | XNew d =>
    if bool_decide (fields d ⊆ V)
    then match alloc E d s with Some (o, s') => Done (V ∪ {[o]}) s' | None => NoFuel end
    else Done V (tock s)
  | XLose X => Done (V ∖ X) (tock s)
  | XTake X => Done (V ∪ (X ∩ alive s)) (tock s)
  | XBin => Done V (tock (set_nbin (N.succ (nbin s)) s))
  | XSleep => Done V (tock s)
  end.
(** A turn of the others.  Before, between and after what they do, builders nobody
    holds are dropped; [W]: what the user and the running code hold. *)
Fixpoint performs_s (W : gset obj) (l : list sact) (V : gset obj) (s : st) : outcome (gset obj) :=
  match settled_down (W ∪ V) s with
  | None => Illegal
  | Some s =>
    match l with
    | [] => Done V s
    | x :: l =>
      match act_s x V s with
      | Done V s => performs_s W l V s
      | Panic k s => Panic k s
      | NoFuel => NoFuel
      | Illegal => Illegal
      end
    end
  end.
Definition meanwhile_s {R} (W V : gset obj) (s : st) (k : gset obj → st → outcome R * gset obj) : outcome R * gset obj :=
  match performs_s W (T (tick s)) V s with
  | Done V' s' => k V' s'
  | Panic k s' => (Panic k s', V)
  | NoFuel => (NoFuel, V)
  | Illegal => (Illegal, V)
  end.

(** [get], [get_ref], [get_cloned] (internal.rs:502-595), see Build.v [get_with];
    [B]: what the user and the running code hold. *)
Definition get_s (bld : gset obj → gset obj → obj → st → outcome bres * gset obj) (B V : gset obj) (h : how) (o : obj) (s : st)
    : outcome rval * gset obj :=
  match promise o s with
  | None => (Illegal, V)
  | Some (d, a) =>
    if how_legal E h then
      meanwhile_s B V s (λ V s,
      match lookup_art (e_dbg E) (ch s) a (bd_aty d) with
      | LPanic k => (Panic k s, V)
      | LSome b => (Done (conv h b) s, V)
      | LNone =>
        match bld B V o s with
        | (Done (BOk e) s', V') =>
          if (ar_ty e =? bd_aty d)%N then (Done (conv h (ar_bin e)) s', V') else (Panic PkDowncast s', V')
        | (Done (BErr e) s', V') => (Done (RvErr e) s', V')
        | (Panic k s', V') => (Panic k s', V')
        | (NoFuel, V') => (NoFuel, V')
        | (Illegal, V') => (Illegal, V')
        end
      end)
    else (Illegal, V)
  end.

(** [Resolver::resolve*] (src/cache.rs:870-987), see Build.v [resolve_with]. *)
Definition resolve_s (bld : gset obj → gset obj → obj → st → outcome bres * gset obj) (B V : gset obj) (u : obj) (ua : addr) (h : how)
    (w : obj) (s : st) : outcome rval * gset obj :=
  match promise w s with
  | None => (Illegal, V)
  | Some (_, wa) =>
    match track_dependency (e_dbg E) ua wa w (ch s) with
    | CPanic k c => (Panic k (set_ch c s), V)
    | CFuel => (NoFuel, V)
    | COk c =>
      match get_s bld B V h w (log (EResolve u w) (set_ch c s)) with
      | (Done r s', V') => (Done r (log (EGot u w r) s'), V')
      | x => x
      end
    end
  end.

(** The code of a builder, see Owned.v [exec_o]; before each thing it does, the
    others have a turn. *)
Fixpoint exec_s (bld : gset obj → gset obj → obj → st → outcome bres * gset obj) (u : obj) (ua : addr) (t : ty) (B L : gset obj)
    (p : prog) (V : gset obj) (s : st) {struct p} : outcome result * gset obj :=
  let L := locals p L in
  meanwhile_s (B ∪ L) V s (λ V s,
  match p with
  | PRet r => (Done r s, V)
  | PPanic => (Panic PkUser s, V)
  | PResolve h w k =>
    match resolve_s bld (B ∪ L) V u ua h w s with
    | (Done r s', V') => exec_s bld u ua t B (L ∪ mentions_rv r) (k r) V' s'
    | (Panic k s', V') => (Panic k s', V')
    | (NoFuel, V') => (NoFuel, V')
    | (Illegal, V') => (Illegal, V')
    end
  | PState k =>
    match my_state (e_dbg E) ua t (ch s) with
    | inl pk => (Panic pk s, V)
    | inr v => exec_s bld u ua t B (L ∪ mentions v) (k v) V s
    end
  | PSetState v p =>
    match my_state (e_dbg E) ua t (ch s) with
    | inl pk => (Panic pk s, V)
    | inr _ => exec_s bld u ua t B L p V (set_ch (set_dyn_states <[ua := Dst t v]> (ch s)) s)
    end
  | PAsk k => exec_s bld u ua t B L (k (e_ask E (tick s))) V (tock s)
  | PNewBin v k => exec_s bld u ua t B L (k (Bin (nbin s) v)) V (set_nbin (N.succ (nbin s)) s)
  | PNew d k =>
    match alloc E d s with
    | None => (NoFuel, V)
    | Some (o, s') => exec_s bld u ua t B (L ∪ {[o]}) (k o) V s'
    end
  | PDrop _ _ => (Illegal, V)
  end).

(** [RawCache::build] (internal.rs:426-497), see Build.v [build]. *)
Fixpoint build_s (fuel : nat) (B V : gset obj) (o : obj) (s : st) {struct fuel} : outcome bres * gset obj :=
  match fuel with
  | O => (NoFuel, V)
  | S fuel' =>
    match promise o s with
    | None => (Illegal, V)
    | Some (BDef aty sty init body, a) =>
      if e_dbg E && contains_artifact (ch s) a then (Panic PkDebug s, V)
      else
        let c1 := make_known a o (ch s) in
        match ensure_dyn_state a o sty init c1 with
        | (c2, inl k) => (Panic k (set_ch c2 s), V)
        | (c2, inr _) =>
          let s1 := set_reent (reent s || bool_decide (o ∈ stack s)) (set_stack (o :: stack s) (set_ch c2 s)) in
          match exec_s (build_s fuel') o a sty B ∅ body V (log (ECall o) s1) with
          | (Done (Ok b) s2, V') =>
            let c3 := set_artifacts <[a := Art aty b]> (ch s2) in
            let s3 := set_stack (stack s) (log (EBuilt o b) (set_ch c3 s2)) in
            match artifacts c3 !! a with
            | Some e => (Done (BOk e) s3, V')
            | None => (Panic PkUnwrap s3, V')
            end
          | (Done (Err e) s2, V') => (Done (BErr e) (set_stack (stack s) (log (EFailed o e) s2)), V')
          | (Panic k s2, V') => (Panic k s2, V')
          | (NoFuel, V') => (NoFuel, V')
          | (Illegal, V') => (Illegal, V')
          end
        end
    end
  end.

(** [get_mut] (internal.rs:555-577), see System.v [op_get_mut]. *)
Definition get_mut_s (fuel : nat) (B V : gset obj) (o : obj) (f : val → val) (s : st) : outcome out * gset obj :=
  match e_kind E, promise o s with
  | Boxed, Some (d, a) =>
    match lookup_mut (e_dbg E) (prio E s) a (bd_aty d) (ch s) with
    | (COk c, LNone) =>
      match build_s fuel B V o (tock (set_ch c s)) with
      | (Done (BOk e) s', V') =>
        if (ar_ty e =? bd_aty d)%N
        then (Done (OutRes (RvVal (bin_val (ar_bin e)))) (set_ch (write_art a f (ch s')) s'), V')
        else (Panic PkDowncast s', V')
      | (Done (BErr e) s', V') => (Done (OutRes (RvErr e)) s', V')
      | (Panic k s', V') => (Panic k s', V')
      | (NoFuel, V') => (NoFuel, V')
      | (Illegal, V') => (Illegal, V')
      end
    | _ => (op_get_mut E fuel o f s, V)
    end
  | _, _ => (Illegal, V)
  end.

(** [garbage_collection] (internal.rs:884-911), see Threads.v [gc_scan], [gc_reap]:
    the others have a turn before each [upgrade_from_weak] and each removal. *)
Fixpoint gc_scan_s (U : gset obj) (ls : list addr) (V : gset obj) (s : st) : outcome (list addr) * gset obj :=
  match ls with
  | [] => (Done [] s, V)
  | a :: ls =>
    meanwhile_s U V s (λ V s,
    match known (ch s) !! a with
    | None => (Panic PkGcIndex s, V)
    | Some o =>
      match gc_scan_s U ls V s with
      | (Done l s', V') => (Done (if dead (alive s) o then a :: l else l) s', V')
      | x => x
      end
    end)
  end.
Fixpoint gc_reap_s (U : gset obj) (pr : nat → nat → N → N) (i : nat) (l : list addr) (V : gset obj) (s : st) : outcome out * gset obj :=
  match l with
  | [] => (Done OutUnit s, V)
  | bid :: l' =>
    meanwhile_s U V s (λ V s,
    match invalidate_by_id (e_dbg E) (pr i) bid (ch s) with
    | COk c1 =>
      let c2 := set_dyn_states (delete bid) c1 in
      let c3 := set_known (delete bid) c2 in
      let c4 := set_leafs (.∖ {[bid]}) c3 in
      gc_reap_s U pr (S i) l' V (set_ch c4 s)
    | CPanic k c => (Panic k (set_ch c s), V)
    | CFuel => (NoFuel, V)
    end)
  end.
Definition gc_s (U V : gset obj) (s : st) : outcome out * gset obj :=
  if e_dbg E && negb (gc_check (ch s)) then (Panic PkDebug (tock s), V)
  else
    match gc_scan_s U (iter_order (prio E s 0 0) (leafs (ch s))) V s with
    | (Done l s1, V1) =>
      match gc_reap_s U (prio E s) 1 l V1 s1 with
      | (Done r s2, V2) => (Done r (tock s2), V2)
      | (Panic k s2, V2) => (Panic k (tock s2), V2)
      | x => x
      end
    | (Panic k s1, V1) => (Panic k (tock s1), V1)
    | (NoFuel, V1) => (NoFuel, V1)
    | (Illegal, V1) => (Illegal, V1)
    end.

(** A call of the user, who holds [U]: the others have a turn first; [get],
    [get_mut] and [garbage_collection] give them turns on the way. *)
Definition step_s (fuel : nat) (U V : gset obj) (x : op) (s : st) : outcome out * gset obj :=
  meanwhile_s U V s (λ V s,
  match x with
  | OAlloc d => match alloc E d s with Some (o, s') => (Done (OutObj o) s', V) | None => (NoFuel, V) end
  | OGet h o =>
    match get_s (build_s fuel) U V h o s with
    | (Done r s', V') => (Done (OutRes r) s', V')
    | (Panic k s', V') => (Panic k s', V')
    | (NoFuel, V') => (NoFuel, V')
    | (Illegal, V') => (Illegal, V')
    end
  | OGetMut o f => get_mut_s fuel U V o f s
  | OGc => gc_s U V s
  | x => (step E fuel x s, V)
  end).

(** Histories.  [U]: the builders of which the user holds blueprints, [V]: those of
    which others do.  Between calls they can give blueprints to one another and drop
    them. *)
Inductive sruns : gset obj → gset obj → list (op * answer) → st → Prop :=
| sruns_nil : sruns ∅ ∅ [] init_st
| sruns_share U V U' V' l s s' :
    sruns U V l s → U' ∪ V' ⊆ U ∪ V → settled_down (U' ∪ V') s = Some s' → sruns U' V' l s'
| sruns_done U V l s n x r s1 V' s' :
    sruns U V l s → may E fields keep U x → step_s n U V x s = (Done r s1, V') →
    settled_down (U ∪ mentions_out r ∪ V') s1 = Some s' →
    sruns (U ∪ mentions_out r) V' ((x, Returned r) :: l) s'
| sruns_panic U V l s n x k s1 V' s' :
    sruns U V l s → may E fields keep U x → step_s n U V x s = (Panic k s1, V') → resumable k = true →
    settled_down (U ∪ V') (unwound s1) = Some s' →
    sruns U V' ((x, Panicked k) :: l) s'.
End Shared.
