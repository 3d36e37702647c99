(** The builders of src/utils.rs and the adaptors of src/rc.rs, src/arc.rs and
    src/boxed.rs, as builder definitions of the model. *)
From Verif Require Export CodeSpec EvalSpec.
From stdpp Require Import relations.

(** A bin stored in a value ([ArtCan::Bin] inside a dynamic state). *)
Definition of_bin (b : bin) : val := VBin (bin_ptr b) (bin_val b).
(** [Option<ArtCan::Bin>], the dynamic state of a RedeemingBuilder. *)
Definition of_opt (o : option bin) : val := match o with Some b => VSome (of_bin b) | None => VNone end.

(** [RedeemingBuilder] (src/utils.rs:50-120): [inner] and [default_value]; its
    [init_dyn_state] (117-119) is a clone of the default value, its [build]
    (98-115) resolves [inner].  [unwrap] of a [None] panics (113).  Values that
    are not an [Option<Bin>] cannot be in the state in the code; the model
    panics for them, too. *)
Definition redeeming (aty sty : ty) (inner : obj) (default_value : option bin) : bdef :=
  BDef aty sty (Some (of_opt default_value))
    (PResolve HBin inner (λ value,
      match value with
      | RvBin v => PSetState (VSome (of_bin v)) (PRet (Ok v))
      | _ => PState (λ st, match st with VSome (VBin p x) => PRet (Ok (Bin p x)) | _ => PPanic end)
      end)).

(** Rust closures [Fn(&mut S) -> Result<ArtCan::Bin, E>] (src/utils.rs:232-237,
    252-259): everything a builder can do, but for resolving. *)
Inductive fprog :=
| FRet (r : result)
| FPanic
| FGet (k : val → fprog)
| FSet (v : val) (f : fprog)
| FAsk (k : N → fprog)
| FNewBin (v : val) (k : bin → fprog)
| FNew (d : bdef) (k : obj → fprog)
| FDrop (w : obj) (f : fprog).
Fixpoint apply_closure (f : fprog) : prog :=
  match f with
  | FRet r => PRet r
  | FPanic => PPanic
  | FGet k => PState (λ v, apply_closure (k v))
  | FSet v f => PSetState v (apply_closure f)
  | FAsk k => PAsk (λ n, apply_closure (k n))
  | FNewBin v k => PNewBin v (λ b, apply_closure (k b))
  | FNew d k => PNew d (λ o, apply_closure (k o))
  | FDrop w f => PDrop w (apply_closure f)
  end.
(** [FunctionalBuilder] (src/utils.rs:212-309): [build] (296-305) takes
    [my_state] and applies the closure to it; [init_dyn_state] (306-308). *)
Definition functional (aty sty : ty) (initial_state : val) (inner : fprog) : bdef :=
  BDef aty sty (Some initial_state) (PState (λ _, apply_closure inner)).

(** Running a closure: from [f] with state [v] to [f'] with state [v']. *)
Inductive closure_step : fprog * val → fprog * val → Prop :=
| cl_get k v : closure_step (FGet k, v) (k v, v)
| cl_set x f v : closure_step (FSet x f, v) (f, x)
| cl_ask k n v : closure_step (FAsk k, v) (k n, v)
| cl_newbin x k p v : closure_step (FNewBin x k, v) (k (Bin p x), v)
| cl_new d k o v : closure_step (FNew d k, v) (k o, v)
| cl_drop w f v : closure_step (FDrop w f, v) (f, v).
Definition closure_runs (f : fprog) (v : val) (f' : fprog) (v' : val) : Prop := rtc closure_step (f, v) (f', v').

(** A closure that is a function of the state: it gives the new state, and the
    artifact or the error. *)
Definition pure_closure (g : val → val * (val + val)) : fprog :=
  FGet (λ v, FSet (fst (g v)) match snd (g v) with
                              | inl x => FNewBin x (λ b, FRet (Ok b))
                              | inr e => FRet (Err e)
                              end).

(** [ConstBuilder] (src/utils.rs:341-410): [build] (402-406) gives a clone of
    the bin: the same bin for [Rc] and [Arc], a new one for [Box]. *)
Definition constant (k : kind) (aty sty : ty) (artifact_bin : bin) : bdef :=
  BDef aty sty (Some VUnit)
    match k with
    | Shared => PRet (Ok artifact_bin)
    | Boxed => PNewBin (bin_val artifact_bin) (λ b, PRet (Ok b))
    end.

(** [ConfigurableBuilder] (src/utils.rs:444-506): [build] (498-502) puts a clone
    of the dynamic state into a new bin; the initial state is [initial]
    (503-505). *)
Definition configurable (aty sty : ty) (initial : val) : bdef :=
  BDef aty sty (Some initial) (PState (λ v, PNewBin v (λ b, PRet (Ok b)))).

(** [ClonedBuilder] (src/utils.rs:526-577): [build] (567-572). *)
Definition cloned (aty sty : ty) (inner : obj) : bdef :=
  BDef aty sty (Some VUnit)
    (PResolve HCloned inner (λ r,
      match r with
      | RvVal v => PNewBin v (λ b, PRet (Ok b))
      | RvErr e => PRet (Err e)
      | RvBin b => PPanic (* [resolve_cloned] gives a value *)
      end)).

(** [ForwardingBuilder] (src/utils.rs:595-645): [build] (636-640). *)
Definition forwarding (aty sty : ty) (inner : obj) : bdef :=
  BDef aty sty (Some VUnit)
    (PResolve HBin inner (λ r,
      match r with
      | RvBin b => PRet (Ok b)
      | RvErr e => PRet (Err e)
      | RvVal v => PPanic (* [resolve] gives a bin *)
      end)).

(** [FeigningBuilder] (src/utils.rs:652-706): [build] (697-701); the conversion
    of the error is [Never::into_any], which cannot be called: modelled as a
    panic. *)
Definition feigning (aty sty : ty) (inner : obj) : bdef :=
  BDef aty sty (Some VUnit)
    (PResolve HBin inner (λ r,
      match r with
      | RvBin b => PRet (Ok b)
      | RvErr e => PPanic
      | RvVal v => PPanic (* [resolve] gives a bin *)
      end)).

(** The [build] of a [SimpleBuilder] (src/rc.rs:134-143, src/arc.rs:129-138,
    src/boxed.rs:101-110): it returns the artifact itself.  Its dynamic state is
    [()], so it cannot do anything with it. *)
Inductive sprog :=
| SRet (v : val)
| SPanic
| SResolve (h : how) (w : obj) (k : rval → sprog)
| SAsk (k : N → sprog)
| SNewBin (v : val) (k : bin → sprog)
| SNew (d : bdef) (k : obj → sprog)
| SDrop (w : obj) (f : sprog).
(** The generic [impl Builder for B: SimpleBuilder] (src/rc.rs:146-162,
    src/arc.rs:141-155, src/boxed.rs:113-129): the artifact is put into a new
    bin. *)
Fixpoint simple_build (p : sprog) : prog :=
  match p with
  | SRet v => PNewBin v (λ b, PRet (Ok b))
  | SPanic => PPanic
  | SResolve h w k => PResolve h w (λ r, simple_build (k r))
  | SAsk k => PAsk (λ n, simple_build (k n))
  | SNewBin v k => PNewBin v (λ b, simple_build (k b))
  | SNew d k => PNew d (λ o, simple_build (k o))
  | SDrop w p => PDrop w (simple_build p)
  end.
Definition simple (aty sty : ty) (build : sprog) : bdef := BDef aty sty (Some VUnit) (simple_build build).

(** Running the [build] of a SimpleBuilder; see [plays] (CodeSpec.v). *)
Inductive splays (p0 : sprog) : list (obj * rval) → sprog → Prop :=
| sp_start : splays p0 [] p0
| sp_got l h w k b : splays p0 l (SResolve h w k) → splays p0 ((w, conv h b) :: l) (k (conv h b))
| sp_err l h w k e : splays p0 l (SResolve h w k) → splays p0 ((w, RvErr e) :: l) (k (RvErr e))
| sp_ask l k n : splays p0 l (SAsk k) → splays p0 l (k n)
| sp_newbin l x k i : splays p0 l (SNewBin x k) → splays p0 l (k (Bin i x))
| sp_new l d k o : splays p0 l (SNew d k) → splays p0 l (k o)
| sp_drop l w p : splays p0 l (SDrop w p) → splays p0 l p.

(** [unpack] of a [Result<T, Never>] (src/lib.rs:342-347, 373-389). *)
Definition unpack {T : Type} (res : T + Empty_set) : T :=
  match res with inl t => t | inr n => match n with end end.

(** A builder with [Err = Never]: its code returns no error. *)
Definition infallible (d : bdef) : Prop := ∀ e, ¬ can_return d (Err e).

(** The newest artifact bin that [u] was given for [w]. *)
Fixpoint last_given (u w : obj) (t : list event) : option bin :=
  match t with
  | [] => None
  | EGot u' w' (RvBin b) :: t => if decide (u' = u ∧ w' = w) then Some b else last_given u w t
  | _ :: t => last_given u w t
  end.
