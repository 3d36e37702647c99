(** Several caches, used while one another's builders are being built: a builder's
    code may call any cache (say, one in a [RefCell] it has access to) that is not
    in the middle of a call itself ([&mut self]; [RefCell] would panic), and these
    calls may run builders that call further caches, and so on.

    As in Several.v, what belongs to a cache is in its lane, the rest is shared.
    The code of a builder ([prog]) has no instruction for calling a cache; what a
    [PAsk] asks may be such a call.  Which call that is, is given by the clock ([plan]);
    its answer comes back as a number ([code]).  A theorem for all [plan], [code] and
    answers of the environment is one for all programs, with as many calls as they
    like.

    Simplifications: making a bin and dropping a builder take time, and so does
    calling a cache (so that the clock tells any two moments apart).  A run ends (is not covered) with a panic of
    [get_mut] or [lookup_mut] because of dependants ([PkCounterpart]); other panics
    are caught, and given to the builder that made the call as its answer (it may
    panic itself). *)
From Verif Require Export Several Threads.

(** A call on a cache; dropping a cache. *)
Inductive ncall := NCall (j : nat) (x : op) | NDrop (j : nat).

(** The caches (the one being used: as of before the current call), those in the
    middle of a call with the builders they are building, and the calls completed so
    far, newest first. *)
Record world := World { w_lanes : gmap nat lane; w_busy : list (nat * list obj); w_log : list mevent }.

(** Returned; panicked; not possible, or not enough fuel. *)
Inductive nres (R : Type) :=
| NDone (r : R) (s : st) (w : world)
| NPanic (k : pkind) (s : st) (w : world)
| NStop.
Arguments NDone {R}. Arguments NPanic {R}. Arguments NStop {R}.
Definition nbind {R Q} (x : nres R) (f : R → st → world → nres Q) : nres Q :=
  match x with NDone r s w => f r s w | NPanic k s w => NPanic k s w | NStop => NStop end.
(** A function of the sequential model. *)
Definition plain {R} (w : world) (x : outcome R) : nres R :=
  match x with Done r s => NDone r s w | Panic k s => NPanic k s w | NoFuel | Illegal => NStop end.

Definition lane_in (w : world) (z : nat) : lane := match w_lanes w !! z with Some l => l | None => new_lane end.
(** What cache [z], building the builders [H], sees; [s] for the shared part. *)
Definition look (z : nat) (H : list obj) (s : st) (w : world) : st :=
  let l := lane_in w z in
  St (l_ch l) (objs s) (alive s) (nobj s) (nbin s) (tick s) H (l_reent l) (l_trace l).
(** Cache [i] is as in [s]. *)
Definition keep (i : nat) (s : st) (w : world) : world :=
  World (<[i := Lane (ch s) (reent s) (trace s)]> (w_lanes w)) (w_busy w) (w_log w).
Definition note (e : mevent) (w : world) : world := World (w_lanes w) (w_busy w) (e :: w_log w).
Definition with_busy (B : list (nat * list obj)) (w : world) : world := World (w_lanes w) B (w_log w).

Section Nested.
Context (E : env) (K : nat → kind) (plan : nat → option ncall) (code : answer → N).

(** [Blueprint::new] (src/blueprint.rs:143-147), called by something cache [i] runs:
    not where another cache has a weak reference. *)
Definition alloc_n (i : nat) (d : bdef) (s : st) (w : world) : option (obj * st) :=
  if forallb (λ jl, bool_decide (jl.1 = i) || bool_decide (known (l_ch jl.2) !! e_ask E (tick s) = None)) (map_to_list (w_lanes w))
  then alloc E d s else None.
(** Dropping the last blueprint of a builder: not of one being built. *)
Definition drop_n (o : obj) (s : st) (w : world) : option st :=
  if existsb (λ zH, bool_decide (o ∈ zH.2)) (w_busy w) then None
  else match drop_obj o s with Some s' => Some (tock s') | None => None end.

Section With.
(** [RawCache::build] of a cache. *)
Context (bld : nat → obj → st → world → nres bres).

(** [get], [get_ref], [get_cloned] (internal.rs:502-595) on cache [i], see Build.v
    [get_with]. *)
Definition get_n (i : nat) (h : how) (o : obj) (s : st) (w : world) : nres rval :=
  match promise o s with
  | None => NStop
  | Some (d, a) =>
    if how_legal (lane_env E K i) h then
      match lookup_art (e_dbg E) (ch s) a (bd_aty d) with
      | LPanic k => NPanic k s w
      | LSome b => NDone (conv h b) s w
      | LNone =>
        nbind (bld i o s w) (λ r s' w',
          match r with
          | BOk e => if (ar_ty e =? bd_aty d)%N then NDone (conv h (ar_bin e)) s' w' else NPanic PkDowncast s' w'
          | BErr e => NDone (RvErr e) s' w'
          end)
      end
    else NStop
  end.

(** [get_mut] (internal.rs:555-577), see System.v [op_get_mut]. *)
Definition get_mut_n (i : nat) (o : obj) (f : val → val) (s : st) (w : world) : nres out :=
  match K i, promise o s with
  | Boxed, Some (d, a) =>
    match lookup_mut (e_dbg E) (prio E s) a (bd_aty d) (ch s) with
    | (COk c, LNone) =>
      nbind (bld i o (tock (set_ch c s)) w) (λ r s' w',
        match r with
        | BOk e =>
          if (ar_ty e =? bd_aty d)%N
          then NDone (OutRes (RvVal (bin_val (ar_bin e)))) (set_ch (write_art a f (ch s')) s') w'
          else NPanic PkDowncast s' w'
        | BErr e => NDone (OutRes (RvErr e)) s' w'
        end)
    | _ => plain w (op_get_mut (lane_env E K i) 0 o f s)
    end
  | _, _ => NStop
  end.

(** A call on cache [i], see System.v [step]. *)
Definition step_n (i : nat) (x : op) (s : st) (w : world) : nres out :=
  match x with
  | OAlloc d => match alloc_n i d s w with Some (o, s') => NDone (OutObj o) s' w | None => NStop end
  | ODrop o => match drop_n o s w with Some s' => NDone OutUnit s' w | None => NStop end
  | OGet h o => nbind (get_n i h o s w) (λ r s' w', NDone (OutRes r) s' w')
  | OGetMut o f => get_mut_n i o f s w
  | x => plain w (step (lane_env E K i) 0 x s)
  end.

(** Using a cache that is not in the middle of a call. *)
Definition act_n (c : ncall) (s : st) (w : world) : nres answer :=
  match c with
  | NCall j x =>
    if bool_decide (j ∈ (w_busy w).*1) then NStop
    else
      match step_n j x (look j [] s w) w with
      | NDone r s' w' => NDone (Returned r) s' (note (MCall j x (Returned r)) (keep j s' w'))
      | NPanic k s' w' =>
        match k with
        | PkCounterpart => NStop
        | _ => NDone (Panicked k) s' (note (MCall j x (Panicked k)) (keep j (unwound s') w'))
        end
      | NStop => NStop
      end
  | NDrop j =>
    if bool_decide (j ∈ (w_busy w).*1) then NStop
    else NDone (Returned OutUnit) s (note (MDrop j) (World (delete j (w_lanes w)) (w_busy w) (w_log w)))
  end.

(** The code of a builder of cache [i] does so: meanwhile, cache [i] is in the
    middle of a call. *)
Definition nested (i : nat) (c : ncall) (s : st) (w : world) : nres answer :=
  nbind (act_n c s (with_busy ((i, stack s) :: w_busy w) (keep i s w))) (λ y s' w',
    NDone y (look i (stack s) s' w') (with_busy (w_busy w) w')).

(** [Resolver::resolve*] (src/cache.rs:870-987), see Build.v [resolve_with]. *)
Definition resolve_n (i : nat) (u : obj) (ua : addr) (h : how) (o : obj) (s : st) (w : world) : nres rval :=
  match promise o s with
  | None => NStop
  | Some (_, oa) =>
    match track_dependency (e_dbg E) ua oa o (ch s) with
    | CPanic k c => NPanic k (set_ch c s) w
    | CFuel => NStop
    | COk c => nbind (get_n i h o (log (EResolve u o) (set_ch c s)) w) (λ r s' w', NDone r (log (EGot u o r) s') w')
    end
  end.

(** The code of a builder, see Build.v [exec]. *)
Fixpoint exec_n (i : nat) (u : obj) (ua : addr) (t : ty) (p : prog) (s : st) (w : world) {struct p} : nres result :=
  match p with
  | PRet r => NDone r s w
  | PPanic => NPanic PkUser s w
  | PResolve h o k => nbind (resolve_n i u ua h o s w) (λ r, exec_n i u ua t (k r))
  | PState k =>
    match my_state (e_dbg E) ua t (ch s) with
    | inl pk => NPanic pk s w
    | inr v => exec_n i u ua t (k v) s w
    end
  | PSetState v p =>
    match my_state (e_dbg E) ua t (ch s) with
    | inl pk => NPanic pk s w
    | inr _ => exec_n i u ua t p (set_ch (set_dyn_states <[ua := Dst t v]> (ch s)) s) w
    end
  | PAsk k =>
    match plan (tick s) with
    | None => exec_n i u ua t (k (e_ask E (tick s))) (tock s) w
    | Some c =>
      nbind (nested i c (tock s) w) (λ y s' w',
        if (e_ask E (tick s') =? code y)%N then exec_n i u ua t (k (code y)) (tock s') w' else NStop)
    end
  | PNewBin v k => exec_n i u ua t (k (Bin (nbin s) v)) (tock (set_nbin (N.succ (nbin s)) s)) w
  | PNew d k =>
    match alloc_n i d s w with
    | None => NStop
    | Some (o, s') => exec_n i u ua t (k o) s' w
    end
  | PDrop o p =>
    match drop_n o s w with
    | None => NStop
    | Some s' => exec_n i u ua t p s' w
    end
  end.
End With.

(** [RawCache::build] (internal.rs:426-497), see Build.v [build]; [fuel] bounds the
    depth of nested builds, across caches. *)
Fixpoint build_n (fuel : nat) (i : nat) (o : obj) (s : st) (w : world) {struct fuel} : nres bres :=
  match fuel with
  | O => NStop
  | S fuel' =>
    match promise o s with
    | None => NStop
    | Some (BDef aty sty init body, a) =>
      if e_dbg E && contains_artifact (ch s) a then NPanic PkDebug s w
      else
        let c1 := make_known a o (ch s) in
        match ensure_dyn_state a o sty init c1 with
        | (c2, inl k) => NPanic k (set_ch c2 s) w
        | (c2, inr _) =>
          let s1 := set_reent (reent s || bool_decide (o ∈ stack s)) (set_stack (o :: stack s) (set_ch c2 s)) in
          nbind (exec_n (build_n fuel') i o a sty body (log (ECall o) s1) w) (λ r s2 w2,
            match r with
            | Ok b =>
              let c3 := set_artifacts <[a := Art aty b]> (ch s2) in
              let s3 := set_stack (stack s) (log (EBuilt o b) (set_ch c3 s2)) in
              match artifacts c3 !! a with
              | Some e => NDone (BOk e) s3 w2
              | None => NPanic PkUnwrap s3 w2
              end
            | Err e => NDone (BErr e) (set_stack (stack s) (log (EFailed o e) s2)) w2
            end)
        end
    end
  end.

(** Histories: the calls completed, those made by builders among them. *)
Inductive nruns : list mevent → mst → Prop :=
| nruns_nil : nruns [] m_init
| nruns_act l m n c y s' w' :
    nruns l m → act_n (build_n n) c (m_rest m) (World (m_lanes m) [] l) = NDone y s' w' →
    nruns (w_log w') (MSt (w_lanes w') s').
End Nested.
