(** Everything at once.  The calls of Build.v and System.v when user code does, in
    the middle of them, whatever it can do without breaking Rust's rules:

    - other threads, and the code of builders, make and drop builders (Threads.v);
    - the doctor panics when told something (Watched.v);
    - [init_dyn_state] answers differently each time it is asked, or panics (in
      Build.v it is a constant of the builder);
    - a builder catches the panic of a [resolve] ([std::panic::catch_unwind]) and goes
      on;
    - garbage collection is interrupted by [Drop] code that panics (Interrupt.v; in
      the histories below).

    Without all this the calls are those of System.v (C53_model). *)
From Verif Require Export Threads Watched.

(** [w_init t o d]: what [init_dyn_state] of builder [o] returns at time [t].
    [w_catch t u w]: builder [u] catches, at time [t], the panic of resolving [w], and
    goes on as it would with [Err v] for the given [v] (a builder can tell it
    from a real error by the value); [None]: it does not catch it. *)
Record weather := Weather {
  w_others : nat → list act;
  w_doctor : list event → bool;
  w_init   : nat → obj → bdef → option val;
  w_catch  : nat → obj → obj → option val;
}.
(** Nothing happens. *)
Definition calm : weather := Weather (λ _, []) (λ _, false) (λ _ _ d, bd_init d) (λ _ _ _, None).

Section Storm.
Context (W : weather) (E : env).
Notation meanwhile := (meanwhile E (w_others W)).

(** [get], [get_ref], [get_cloned] (internal.rs:502-595), see Threads.v [get_t]. *)
Definition get_s (bld : obj → st → outcome bres) (h : how) (o : obj) (s : st) : outcome rval :=
  match promise o s with
  | None => Illegal
  | Some (d, a) =>
    if how_legal E h then
      meanwhile [o] s (λ s,
      match lookup_art (e_dbg E) (ch s) a (bd_aty d) with
      | LPanic k => Panic k s
      | LSome b => Done (conv h b) s
      | LNone =>
        match bld o s with
        | Done (BOk e) s' =>
          if (ar_ty e =? bd_aty d)%N then Done (conv h (ar_bin e)) s' else Panic PkDowncast s'
        | Done (BErr e) s' => Done (RvErr e) s'
        | Panic k s' => Panic k s'
        | NoFuel => NoFuel
        | Illegal => Illegal
        end
      end)
    else Illegal
  end.

(** [Resolver::resolve*] (src/cache.rs:870-987), see Watched.v [resolve_d]. *)
Definition resolve_s (bld : obj → st → outcome bres) (u : obj) (ua : addr) (h : how) (w : obj) (s : st) : outcome rval :=
  match promise w s with
  | None => Illegal
  | Some (_, wa) =>
    match track_dependency (e_dbg E) ua wa w (ch s) with
    | CPanic k c => Panic k (set_ch c s)
    | CFuel => NoFuel
    | COk c =>
      let s1 := log (EResolve u w) (set_ch c s) in
      if w_doctor W (trace s1) then Panic PkUser s1
      else
        match get_s bld h w s1 with
        | Done r s' => Done r (log (EGot u w r) s')
        | x => x
        end
    end
  end.

(** The code of a builder, see Build.v [exec]; before each thing it does, the others
    have a turn.  When a panic is caught, the builds it went through are over: the
    cache has no clean-up code (internal.rs:426-497), so it stays as it is. *)
Fixpoint exec_s (bld : obj → st → outcome bres) (u : obj) (ua : addr) (t : ty) (p : prog) (s : st)
    {struct p} : outcome result :=
  meanwhile [] s (λ s,
  match p with
  | PRet r => Done r s
  | PPanic => Panic PkUser s
  | PResolve h w k =>
    match resolve_s bld u ua h w s with
    | Done r s' => exec_s bld u ua t (k r) s'
    | Panic pk s' =>
      match w_catch W (tick s') u w with
      | Some v => exec_s bld u ua t (k (RvErr v)) (tock (set_stack (stack s) s'))
      | None => Panic pk s'
      end
    | NoFuel => NoFuel
    | Illegal => Illegal
    end
  | PState k =>
    match my_state (e_dbg E) ua t (ch s) with
    | inl pk => Panic pk s
    | inr v => exec_s bld u ua t (k v) s
    end
  | PSetState v p =>
    match my_state (e_dbg E) ua t (ch s) with
    | inl pk => Panic pk s
    | inr _ => exec_s bld u ua t p (set_ch (set_dyn_states <[ua := Dst t v]> (ch s)) s)
    end
  | PAsk k => exec_s bld u ua t (k (e_ask E (tick s))) (tock s)
  | PNewBin v k => exec_s bld u ua t (k (Bin (nbin s) v)) (set_nbin (N.succ (nbin s)) s)
  | PNew d k =>
    match alloc E d s with
    | None => Illegal
    | Some (o, s') => exec_s bld u ua t (k o) s'
    end
  | PDrop w p =>
    match drop_obj w s with
    | None => Illegal
    | Some s' => exec_s bld u ua t p s'
    end
  end).

(** [RawCache::build] (internal.rs:426-497), see Watched.v [build_d]; the others have
    a turn while [init_dyn_state] runs. *)
Fixpoint build_s (fuel : nat) (o : obj) (s : st) {struct fuel} : outcome bres :=
  match fuel with
  | O => NoFuel
  | S fuel' =>
    match promise o s with
    | None => Illegal
    | Some (d, a) =>
      meanwhile [o] s (λ s,
      if e_dbg E && contains_artifact (ch s) a then Panic PkDebug s
      else
        let c1 := make_known a o (ch s) in
        match ensure_dyn_state a o (bd_sty d) (w_init W (tick s) o d) c1 with
        | (c2, inl k) => Panic k (set_ch c2 s)
        | (c2, inr _) =>
          let s1 := set_reent (reent s || bool_decide (o ∈ stack s)) (set_stack (o :: stack s) (set_ch c2 s)) in
          match exec_s (build_s fuel') o a (bd_sty d) (bd_body d) (log (ECall o) s1) with
          | Done (Ok b) s2 =>
            if w_doctor W (EBuilt o b :: trace s2) then Panic PkUser s2
            else
              let c3 := set_artifacts <[a := Art (bd_aty d) b]> (ch s2) in
              let s3 := set_stack (stack s) (log (EBuilt o b) (set_ch c3 s2)) in
              match artifacts c3 !! a with
              | Some e => Done (BOk e) s3
              | None => Panic PkUnwrap s3
              end
          | Done (Err e) s2 => Done (BErr e) (set_stack (stack s) (log (EFailed o e) s2))
          | Panic k s2 => Panic k s2
          | NoFuel => NoFuel
          | Illegal => Illegal
          end
        end)
    end
  end.

(** [get_mut] (internal.rs:555-577), see System.v [op_get_mut]. *)
Definition get_mut_s (fuel : nat) (o : obj) (f : val → val) (s : st) : outcome out :=
  match e_kind E, promise o s with
  | Boxed, Some (d, a) =>
    match lookup_mut (e_dbg E) (prio E s) a (bd_aty d) (ch s) with
    | (COk c, LNone) =>
      match build_s fuel o (tock (set_ch c s)) with
      | Done (BOk e) s' =>
        if (ar_ty e =? bd_aty d)%N
        then Done (OutRes (RvVal (bin_val (ar_bin e)))) (set_ch (write_art a f (ch s')) s')
        else Panic PkDowncast s'
      | Done (BErr e) s' => Done (OutRes (RvErr e)) s'
      | Panic k s' => Panic k s'
      | NoFuel => NoFuel
      | Illegal => Illegal
      end
    | _ => op_get_mut E fuel o f s
    end
  | _, _ => Illegal
  end.

(** The calls (see System.v [step], Threads.v [step_t], Watched.v [step_d]) ... *)
Definition call_s (fuel : nat) (x : op) (s : st) : outcome out :=
  match x with
  | OGet h o =>
    match get_s (build_s fuel) h o s with
    | Done r s' => Done (OutRes r) s'
    | Panic k s' => Panic k s'
    | NoFuel => NoFuel
    | Illegal => Illegal
    end
  | OGetMut o f => get_mut_s fuel o f s
  | ODynState o =>                                         (* internal.rs:703-716 *)
    match promise o s with
    | None => Illegal
    | Some (d, a) =>
      match ensure_dyn_state a o (bd_sty d) (w_init W (tick s) o d) (ch s) with
      | (c, inr v) => Done (OutVal v) (set_ch c s)
      | (c, inl k) => Panic k (set_ch c s)
      end
    end
  | ODynStateMut o f =>                                    (* internal.rs:683-699, 877 *)
    match promise o s with
    | None => Illegal
    | Some (d, a) =>
      match invalidate_by_id (e_dbg E) (prio E s 0) a (ch s) with
      | COk c =>
        let s1 := log (EInvalidate o) (tock (set_ch c s)) in
        if w_doctor W (trace s1) then Panic PkUser s1
        else
          match ensure_dyn_state a o (bd_sty d) (w_init W (tick s1) o d) (ch s1) with
          | (c, inr v) => Done (OutVal v) (set_ch (set_dyn_states <[a := Dst (bd_sty d) (f v)]> c) s1)
          | (c, inl k) => Panic k (set_ch c s1)
          end
      | CPanic k c => Panic k (tock (set_ch c s))
      | CFuel => NoFuel
      end
    end
  | OInvalidate o => ends_told (w_doctor W) (EInvalidate o) (step E fuel x s) s   (* internal.rs:877 *)
  | OPurge o => ends_told (w_doctor W) (EInvalidate o) (step E fuel x s) s        (* internal.rs:756 *)
  | OClearAll => ends_told (w_doctor W) EClear (step E fuel x s) s                (* internal.rs:783 *)
  | OGc => gc_t E (w_others W) s
  | x => step E fuel x s
  end.
(** ... before which the others have a turn. *)
Definition step_s (fuel : nat) (x : op) (s : st) : outcome out := meanwhile (borrows x) s (call_s fuel x).
End Storm.

(** Histories: other weather in each call, and garbage collection may be interrupted
    by [Drop] code that panics. *)
Inductive stormy (E : env) : st → Prop :=
| stormy_nil : stormy E init_st
| stormy_done s W n x r s' : stormy E s → step_s W E n x s = Done r s' → stormy E s'
| stormy_panic s W n x k s' :
    stormy E s → step_s W E n x s = Panic k s' → resumable k = true → stormy E (unwound s')
| stormy_gc s da dd n s' : stormy E s → step_i da dd E n OGc s = Panic PkUser s' → stormy E (unwound s').

(** For examples. *)
Fixpoint run_s (W : weather) (E : env) (fuel : nat) (l : list op) (s : st) : option (list answer * st) :=
  match l with
  | [] => Some ([], s)
  | x :: l' =>
    match step_s W E fuel x s with
    | Done r s' => match run_s W E fuel l' s' with Some (rs, s'') => Some (Returned r :: rs, s'') | None => None end
    | Panic k s' =>
      if resumable k then
        match run_s W E fuel l' (unwound s') with Some (rs, s'') => Some (Panicked k :: rs, s'') | None => None end
      else None
    | _ => None
    end
  end.
