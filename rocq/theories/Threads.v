(** Calls on a cache while other threads run (the [Arc] variants, src/arc.rs and
    src/boxed.rs): they may make builders, drop builders, and make bins at any time.
    The cache itself is used by one thread at a time ([&mut self]).

    Other threads get a turn where the cache, or a builder, looks at something they
    can change: when a builder's code does anything, when the cache is about to look
    for an artifact, and before each [upgrade_from_weak] and each removal of
    [garbage_collection].  Between these points the code only touches the cache,
    which the others cannot reach.  What others do in a turn is given by a schedule,
    a function of the clock; a theorem for all schedules is one for all
    interleavings.

    The same is a model of a single-threaded program where a builder, or the [Drop]
    code of an artifact removed by [garbage_collection], makes or drops builders (or
    uses another cache, whose builders do so). *)
From Verif Require Export System.

(** What another thread does: [Blueprint::new], dropping the last [Blueprint] of a
    builder, making a bin; [ASleep] just takes time. *)
Inductive act := ANew (d : bdef) | ADrop (w : obj) | ABin | ASleep.

Section Threads.
Context (E : env) (T : nat → list act).

(** [B]: builders borrowed by the call (besides those being built).  What is not
    possible (a borrowed builder cannot be dropped, an address in use not be
    allocated) is [None]. *)
Definition perform (B : list obj) (x : act) (s : st) : option st :=
  match x with
  | ANew d => match alloc E d s with Some (_, s') => Some s' | None => None end
  | ADrop w => if bool_decide (w ∈ B) then None else match drop_obj w s with Some s' => Some (tock s') | None => None end
  | ABin => Some (tock (set_nbin (N.succ (nbin s)) s))
  | ASleep => Some (tock s)
  end.
Fixpoint performs (B : list obj) (l : list act) (s : st) : option st :=
  match l with
  | [] => Some s
  | x :: l => match perform B x s with Some s' => performs B l s' | None => None end
  end.
Definition meanwhile {R} (B : list obj) (s : st) (k : st → outcome R) : outcome R :=
  match performs B (T (tick s)) s with Some s' => k s' | None => Illegal end.

(** [get], [get_ref], [get_cloned] (internal.rs:502-595), see Build.v [get_with]. *)
Definition get_t (bld : obj → st → outcome bres) (h : how) (o : obj) (s : st) : outcome rval :=
  match promise o s with
  | None => Illegal
  | Some (d, a) =>
    if how_legal E h then
      meanwhile [o] s (λ s,
      match lookup_art (e_dbg E) (ch s) a (bd_aty d) with
      | LPanic k => Panic k s
      | LSome b => Done (conv h b) s
      | LNone =>
        match bld o s with
        | Done (BOk e) s' =>
          if (ar_ty e =? bd_aty d)%N then Done (conv h (ar_bin e)) s' else Panic PkDowncast s'
        | Done (BErr e) s' => Done (RvErr e) s'
        | Panic k s' => Panic k s'
        | NoFuel => NoFuel
        | Illegal => Illegal
        end
      end)
    else Illegal
  end.

(** [Resolver::resolve*] (src/cache.rs:870-987), see Build.v [resolve_with]. *)
Definition resolve_t (bld : obj → st → outcome bres) (u : obj) (ua : addr) (h : how) (w : obj) (s : st) : outcome rval :=
  match promise w s with
  | None => Illegal
  | Some (_, wa) =>
    match track_dependency (e_dbg E) ua wa w (ch s) with
    | CPanic k c => Panic k (set_ch c s)
    | CFuel => NoFuel
    | COk c =>
      match get_t bld h w (log (EResolve u w) (set_ch c s)) with
      | Done r s' => Done r (log (EGot u w r) s')
      | x => x
      end
    end
  end.

(** The code of a builder, see Build.v [exec]; before each thing it does, the
    others have a turn. *)
Fixpoint exec_t (bld : obj → st → outcome bres) (u : obj) (ua : addr) (t : ty) (p : prog) (s : st)
    {struct p} : outcome result :=
  meanwhile [] s (λ s,
  match p with
  | PRet r => Done r s
  | PPanic => Panic PkUser s
  | PResolve h w k =>
    match resolve_t bld u ua h w s with
    | Done r s' => exec_t bld u ua t (k r) s'
    | Panic k s' => Panic k s'
    | NoFuel => NoFuel
    | Illegal => Illegal
    end
  | PState k =>
    match my_state (e_dbg E) ua t (ch s) with
    | inl pk => Panic pk s
    | inr v => exec_t bld u ua t (k v) s
    end
  | PSetState v p =>
    match my_state (e_dbg E) ua t (ch s) with
    | inl pk => Panic pk s
    | inr _ => exec_t bld u ua t p (set_ch (set_dyn_states <[ua := Dst t v]> (ch s)) s)
    end
  | PAsk k => exec_t bld u ua t (k (e_ask E (tick s))) (tock s)
  | PNewBin v k => exec_t bld u ua t (k (Bin (nbin s) v)) (set_nbin (N.succ (nbin s)) s)
  | PNew d k =>
    match alloc E d s with
    | None => Illegal
    | Some (o, s') => exec_t bld u ua t (k o) s'
    end
  | PDrop w p =>
    match drop_obj w s with
    | None => Illegal
    | Some s' => exec_t bld u ua t p s'
    end
  end).

(** [RawCache::build] (internal.rs:426-497), see Build.v [build]. *)
Fixpoint build_t (fuel : nat) (o : obj) (s : st) {struct fuel} : outcome bres :=
  match fuel with
  | O => NoFuel
  | S fuel' =>
    match promise o s with
    | None => Illegal
    | Some (BDef aty sty init body, a) =>
      if e_dbg E && contains_artifact (ch s) a then Panic PkDebug s
      else
        let c1 := make_known a o (ch s) in
        match ensure_dyn_state a o sty init c1 with
        | (c2, inl k) => Panic k (set_ch c2 s)
        | (c2, inr _) =>
          let s1 := set_reent (reent s || bool_decide (o ∈ stack s)) (set_stack (o :: stack s) (set_ch c2 s)) in
          match exec_t (build_t fuel') o a sty body (log (ECall o) s1) with
          | Done (Ok b) s2 =>
            let c3 := set_artifacts <[a := Art aty b]> (ch s2) in
            let s3 := set_stack (stack s) (log (EBuilt o b) (set_ch c3 s2)) in
            match artifacts c3 !! a with
            | Some e => Done (BOk e) s3
            | None => Panic PkUnwrap s3
            end
          | Done (Err e) s2 => Done (BErr e) (set_stack (stack s) (log (EFailed o e) s2))
          | Panic k s2 => Panic k s2
          | NoFuel => NoFuel
          | Illegal => Illegal
          end
        end
    end
  end.

(** [get_mut] (internal.rs:555-577), see System.v [op_get_mut]. *)
Definition get_mut_t (fuel : nat) (o : obj) (f : val → val) (s : st) : outcome out :=
  match e_kind E, promise o s with
  | Boxed, Some (d, a) =>
    match lookup_mut (e_dbg E) (prio E s) a (bd_aty d) (ch s) with
    | (COk c, LNone) =>
      match build_t fuel o (tock (set_ch c s)) with
      | Done (BOk e) s' =>
        if (ar_ty e =? bd_aty d)%N
        then Done (OutRes (RvVal (bin_val (ar_bin e)))) (set_ch (write_art a f (ch s')) s')
        else Panic PkDowncast s'
      | Done (BErr e) s' => Done (OutRes (RvErr e)) s'
      | Panic k s' => Panic k s'
      | NoFuel => NoFuel
      | Illegal => Illegal
      end
    | _ => op_get_mut E fuel o f s
    end
  | _, _ => Illegal
  end.

(** [garbage_collection] (internal.rs:884-911): checking the leafs one after the
    other, [known_builders[bid]] panics if a leaf is not known (903) ... *)
Fixpoint gc_scan (ls : list addr) (s : st) : outcome (list addr) :=
  match ls with
  | [] => Done [] s
  | a :: ls =>
    meanwhile [] s (λ s,
    match known (ch s) !! a with
    | None => Panic PkGcIndex s
    | Some o =>
      match gc_scan ls s with
      | Done l s' => Done (if dead (alive s) o then a :: l else l) s'
      | x => x
      end
    end)
  end.
(** ... then removing those seen dead (905-910), see Cache.v [gc_loop]. *)
Fixpoint gc_reap (pr : nat → nat → N → N) (i : nat) (l : list addr) (s : st) : outcome out :=
  match l with
  | [] => Done OutUnit s
  | bid :: l' =>
    meanwhile [] s (λ s,
    match invalidate_by_id (e_dbg E) (pr i) bid (ch s) with
    | COk c1 =>
      let c2 := set_dyn_states (delete bid) c1 in
      let c3 := set_known (delete bid) c2 in
      let c4 := set_leafs (.∖ {[bid]}) c3 in
      gc_reap pr (S i) l' (set_ch c4 s)
    | CPanic k c => Panic k (set_ch c s)
    | CFuel => NoFuel
    end)
  end.
Definition gc_t (s : st) : outcome out :=
  if e_dbg E && negb (gc_check (ch s)) then Panic PkDebug (tock s)
  else
    match gc_scan (iter_order (prio E s 0 0) (leafs (ch s))) s with
    | Done l s1 =>
      match gc_reap (prio E s) 1 l s1 with
      | Done r s2 => Done r (tock s2)
      | Panic k s2 => Panic k (tock s2)
      | x => x
      end
    | Panic k s1 => Panic k (tock s1)
    | NoFuel => NoFuel
    | Illegal => Illegal
    end.

(** The builders a call borrows: those it is called with. *)
Definition borrows (x : op) : list obj :=
  match x with
  | OAlloc _ | OClearArtifacts | OClearAll | OGc | ONumKnown => []
  | ODrop o | OGet _ o | OGetMut o _ | OLookup _ o | OLookupMut o _ | ODynState o | ODynStateMut o _ | OGetDynState o
  | OInvalidate o | OPurge o | OIsKnown o => [o]
  end.

(** A call: the others have a turn first; [get], [get_mut] and
    [garbage_collection] give them turns on the way. *)
Definition step_t (fuel : nat) (x : op) (s : st) : outcome out :=
  meanwhile (borrows x) s (λ s,
  match x with
  | OGet h o =>
    match get_t (build_t fuel) h o s with
    | Done r s' => Done (OutRes r) s'
    | Panic k s' => Panic k s'
    | NoFuel => NoFuel
    | Illegal => Illegal
    end
  | OGetMut o f => get_mut_t fuel o f s
  | OGc => gc_t s
  | x => step E fuel x s
  end).

(** Histories, as [runs] (System.v). *)
Inductive runs_t : list (op * answer) → st → Prop :=
| runs_t_nil : runs_t [] init_st
| runs_t_done l s n x r s' :
    runs_t l s → step_t n x s = Done r s' → runs_t ((x, Returned r) :: l) s'
| runs_t_panic l s n x k s' :
    runs_t l s → step_t n x s = Panic k s' → resumable k = true → runs_t ((x, Panicked k) :: l) (unwound s').
End Threads.
