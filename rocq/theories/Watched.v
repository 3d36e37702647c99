(** Doctors that panic (feature [diagnostics], src/diagnostics/mod.rs): the cache
    calls the doctor in the middle of its own calls, and the doctor is user code.
    The doctors of this crate panic as well, when their output cannot be written
    (src/diagnostics/textual.rs:206-290, src/diagnostics/visgraph.rs:114-217, all
    [unwrap]).

    [J (e :: l)] says whether the doctor panics when told [e] after having been told
    [l] (newest first).  Where the doctor does not panic the calls are those of
    Build.v and System.v (C49_model). *)
From Verif Require Export System Interrupt.

Section Watched.
Context (J : list event → bool) (E : env).

(** The doctor is told [e]. *)
Definition jinx (e : event) (s : st) : bool := J (e :: trace s).

(** [Resolver::resolve*] (src/cache.rs:870-987), see Build.v [resolve_with]: the
    doctor is told by [track_dependency] after everything is recorded
    (internal.rs:260), before the artifact is looked for. *)
Definition resolve_d (bld : obj → st → outcome bres) (u : obj) (ua : addr) (h : how) (w : obj) (s : st) : outcome rval :=
  match promise w s with
  | None => Illegal
  | Some (_, wa) =>
    match track_dependency (e_dbg E) ua wa w (ch s) with
    | CPanic k c => Panic k (set_ch c s)
    | CFuel => NoFuel
    | COk c =>
      let s1 := log (EResolve u w) (set_ch c s) in
      if jinx (EResolve u w) (set_ch c s) then Panic PkUser s1
      else
        match get_with E bld h w s1 with
        | Done r s' => Done r (log (EGot u w r) s')
        | x => x
        end
    end
  end.

(** The code of a builder, see Build.v [exec]. *)
Fixpoint exec_d (bld : obj → st → outcome bres) (u : obj) (ua : addr) (t : ty) (p : prog) (s : st)
    {struct p} : outcome result :=
  match p with
  | PRet r => Done r s
  | PPanic => Panic PkUser s
  | PResolve h w k =>
    match resolve_d bld u ua h w s with
    | Done r s' => exec_d bld u ua t (k r) s'
    | Panic k s' => Panic k s'
    | NoFuel => NoFuel
    | Illegal => Illegal
    end
  | PState k =>
    match my_state (e_dbg E) ua t (ch s) with
    | inl pk => Panic pk s
    | inr v => exec_d bld u ua t (k v) s
    end
  | PSetState v p =>
    match my_state (e_dbg E) ua t (ch s) with
    | inl pk => Panic pk s
    | inr _ => exec_d bld u ua t p (set_ch (set_dyn_states <[ua := Dst t v]> (ch s)) s)
    end
  | PAsk k => exec_d bld u ua t (k (e_ask E (tick s))) (tock s)
  | PNewBin v k => exec_d bld u ua t (k (Bin (nbin s) v)) (set_nbin (N.succ (nbin s)) s)
  | PNew d k =>
    match alloc E d s with
    | None => Illegal
    | Some (o, s') => exec_d bld u ua t (k o) s'
    end
  | PDrop w p =>
    match drop_obj w s with
    | None => Illegal
    | Some s' => exec_d bld u ua t p s'
    end
  end.

(** [RawCache::build] (internal.rs:426-497), see Build.v [build]: the doctor is told
    (475) before the artifact is inserted (485). *)
Fixpoint build_d (fuel : nat) (o : obj) (s : st) {struct fuel} : outcome bres :=
  match fuel with
  | O => NoFuel
  | S fuel' =>
    match promise o s with
    | None => Illegal
    | Some (BDef aty sty init body, a) =>
      if e_dbg E && contains_artifact (ch s) a then Panic PkDebug s
      else
        let c1 := make_known a o (ch s) in
        match ensure_dyn_state a o sty init c1 with
        | (c2, inl k) => Panic k (set_ch c2 s)
        | (c2, inr _) =>
          let s1 := set_reent (reent s || bool_decide (o ∈ stack s)) (set_stack (o :: stack s) (set_ch c2 s)) in
          match exec_d (build_d fuel') o a sty body (log (ECall o) s1) with
          | Done (Ok b) s2 =>
            if jinx (EBuilt o b) s2 then Panic PkUser s2
            else
              let c3 := set_artifacts <[a := Art aty b]> (ch s2) in
              let s3 := set_stack (stack s) (log (EBuilt o b) (set_ch c3 s2)) in
              match artifacts c3 !! a with
              | Some e => Done (BOk e) s3
              | None => Panic PkUnwrap s3
              end
          | Done (Err e) s2 => Done (BErr e) (set_stack (stack s) (log (EFailed o e) s2))
          | Panic k s2 => Panic k s2
          | NoFuel => NoFuel
          | Illegal => Illegal
          end
        end
    end
  end.

(** [get_mut] (internal.rs:555-577), see System.v [op_get_mut]. *)
Definition get_mut_d (fuel : nat) (o : obj) (f : val → val) (s : st) : outcome out :=
  match e_kind E, promise o s with
  | Boxed, Some (d, a) =>
    match lookup_mut (e_dbg E) (prio E s) a (bd_aty d) (ch s) with
    | (COk c, LNone) =>
      match build_d fuel o (tock (set_ch c s)) with
      | Done (BOk e) s' =>
        if (ar_ty e =? bd_aty d)%N
        then Done (OutRes (RvVal (bin_val (ar_bin e)))) (set_ch (write_art a f (ch s')) s')
        else Panic PkDowncast s'
      | Done (BErr e) s' => Done (OutRes (RvErr e)) s'
      | Panic k s' => Panic k s'
      | NoFuel => NoFuel
      | Illegal => Illegal
      end
    | _ => op_get_mut E fuel o f s
    end
  | _, _ => Illegal
  end.

(** The doctor is told [e] at the end of [x]. *)
Definition ends_told (e : event) (x : outcome out) (s : st) : outcome out :=
  match x with
  | Done r s' => if jinx e s then Panic PkUser s' else x
  | x => x
  end.

(** The calls. *)
Definition step_d (fuel : nat) (x : op) (s : st) : outcome out :=
  match x with
  | OGet h o =>
    match get_with E (build_d fuel) h o s with
    | Done r s' => Done (OutRes r) s'
    | Panic k s' => Panic k s'
    | NoFuel => NoFuel
    | Illegal => Illegal
    end
  | OGetMut o f => get_mut_d fuel o f s
  | ODynStateMut o f =>                                    (* internal.rs:683-699, 877 *)
    match promise o s with
    | None => Illegal
    | Some (d, a) =>
      match invalidate_by_id (e_dbg E) (prio E s 0) a (ch s) with
      | COk c =>
        let s1 := log (EInvalidate o) (tock (set_ch c s)) in
        if jinx (EInvalidate o) s then Panic PkUser s1
        else
          match ensure_dyn_state a o (bd_sty d) (bd_init d) (ch s1) with
          | (c, inr v) => Done (OutVal v) (set_ch (set_dyn_states <[a := Dst (bd_sty d) (f v)]> c) s1)
          | (c, inl k) => Panic k (set_ch c s1)
          end
      | CPanic k c => Panic k (tock (set_ch c s))
      | CFuel => NoFuel
      end
    end
  | OInvalidate o => ends_told (EInvalidate o) (step E fuel x s) s   (* internal.rs:877 *)
  | OPurge o => ends_told (EInvalidate o) (step E fuel x s) s        (* internal.rs:756 *)
  | OClearAll => ends_told EClear (step E fuel x s) s                (* internal.rs:783 *)
  | x => step E fuel x s
  end.
End Watched.

(** Histories in which the doctor may panic whenever it is told something (another
    [J] each time: a doctor may have changed in between, [Cache::doctor]), and in
    which garbage collection may be interrupted by the [Drop] code of artifacts and
    dynamic states (Interrupt.v). *)
Inductive watched (E : env) : st → Prop :=
| watched_nil : watched E init_st
| watched_done s J n x r s' : watched E s → step_d J E n x s = Done r s' → watched E s'
| watched_panic s J n x k s' :
    watched E s → step_d J E n x s = Panic k s' → resumable k = true → watched E (unwound s')
| watched_gc s da dd n s' : watched E s → step_i da dd E n OGc s = Panic PkUser s' → watched E (unwound s').

(** For examples. *)
Fixpoint run_d (J : list event → bool) (E : env) (fuel : nat) (l : list op) (s : st) : option (list answer * st) :=
  match l with
  | [] => Some ([], s)
  | x :: l' =>
    match step_d J E fuel x s with
    | Done r s' => match run_d J E fuel l' s' with Some (rs, s'') => Some (Returned r :: rs, s'') | None => None end
    | Panic k s' =>
      if resumable k then
        match run_d J E fuel l' (unwound s') with Some (rs, s'') => Some (Panicked k :: rs, s'') | None => None end
      else None
    | _ => None
    end
  end.
