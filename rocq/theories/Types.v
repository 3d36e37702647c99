(** Basic vocabulary of the model: addresses, builder objects, type tags,
    values, builder programs, the cache and the whole state.

    All citations are to files in /repo. *)
From stdpp Require Export gmap sets list numbers sorting.
From Coq Require Export NArith Lia.

(** [BuilderId(usize)], the address of a builder (src/lib.rs:519-536).
    Addresses can be reused after the builder has been freed.
    Simplification: unbounded [N] instead of [usize]. *)
Notation addr := N (only parsing).
(** Identity of one builder object during its whole life; never reused.  Ghost:
    there is no such number in the code, it names "the allocation made by one
    particular [Rc::new(builder)]". *)
Notation obj := N (only parsing).
(** [std::any::TypeId] of an artifact or dynamic state type; the downcasts of
    src/canning.rs:394-609 and of [Box<dyn Any>] compare these. *)
Notation ty := N (only parsing).

(** Values of artifacts, dynamic states and errors.  Simplification: a fixed
    universe of first-order data, which may mention builders (a [Blueprint]
    stored in a value) and shared bins. *)
Inductive val :=
| VUnit
| VNum (n : N)
| VObj (o : obj)
| VBin (p : N) (v : val)
| VNone
| VSome (v : val)
| VPair (v w : val).

Global Instance val_eq_dec : EqDecision val.
Proof. solve_decision. Defined.

(** An artifact bin, e.g. [Rc<T>] (src/canning.rs:394-481): the allocation
    identity (what [Rc::ptr_eq] compares) and the content. *)
Record bin := Bin { bin_ptr : N; bin_val : val }.
Global Instance bin_eq_dec : EqDecision bin.
Proof. solve_decision. Defined.

(** What [Builder::build] returns: [Result<ArtCan::Bin, Self::Err>]
    (src/lib.rs:495-500). *)
Inductive result := Ok (b : bin) | Err (e : val).
Global Instance result_eq_dec : EqDecision result.
Proof. solve_decision. Defined.

(** The three non-mutating accessors [get]/[resolve], [get_ref]/[resolve_ref],
    [get_cloned]/[resolve_cloned] (src/cache.rs:509-651, 907-987). *)
Inductive how := HBin | HRef | HCloned.

(** What such an accessor gives: the bin, the (borrowed or cloned) artifact,
    or the builder's error. *)
Inductive rval := RvBin (b : bin) | RvVal (v : val) | RvErr (e : val).
Global Instance rval_eq_dec : EqDecision rval.
Proof. solve_decision. Defined.

(** [Ok] side of the accessors: the bin itself, or its content
    (src/cache/internal.rs:502-595). *)
Definition conv (h : how) (b : bin) : rval :=
  match h with HBin => RvBin b | HRef | HCloned => RvVal (bin_val b) end.

(** Builder programs: the body of [Builder::build] (src/lib.rs:476-509) as an
    interaction tree over everything a [Resolver] offers
    (src/cache.rs:854-1003), plus the effects a Rust function can have by
    itself. *)
Inductive prog :=
| PRet (r : result)                              (* return *)
| PPanic                                         (* panic! *)
| PResolve (h : how) (w : obj) (k : rval → prog) (* resolver.resolve*(w) *)
| PState (k : val → prog)                        (* read  resolver.my_state() *)
| PSetState (v : val) (p : prog)                 (* write resolver.my_state() *)
| PAsk (k : N → prog)                            (* observe the outside world *)
| PNewBin (v : val) (k : bin → prog)             (* ArtCan::into_bin(v) *)
| PNew (d : bdef) (k : obj → prog)               (* Blueprint::new(..) *)
| PDrop (w : obj) (p : prog)                     (* drop the last Blueprint of w *)
(** A builder: its artifact type, its dynamic state type, its
    [init_dyn_state] ([None]: it panics) and its [build] (src/lib.rs:476-509).
    Simplification: [init_dyn_state] is a constant of the builder (in Storm.v it
    is not). *)
with bdef :=
| BDef (aty sty : ty) (init : option val) (body : prog).

Definition bd_aty (d : bdef) : ty := let '(BDef t _ _ _) := d in t.
Definition bd_sty (d : bdef) : ty := let '(BDef _ t _ _) := d in t.
Definition bd_init (d : bdef) : option val := let '(BDef _ _ i _) := d in i.
Definition bd_body (d : bdef) : prog := let '(BDef _ _ _ b) := d in b.

(** A cached artifact: an [ArtCan], i.e. a bin with its dynamic type. *)
Record art := Art { ar_ty : ty; ar_bin : bin }.
(** A cached dynamic state: a [Box<dyn Any>]. *)
Record dst := Dst { ds_ty : ty; ds_val : val }.
Global Instance art_eq_dec : EqDecision art.
Proof. solve_decision. Defined.
Global Instance dst_eq_dec : EqDecision dst.
Proof. solve_decision. Defined.

(** [RawCache] (src/cache/internal.rs:92-147).  [known] maps an id to the weak
    reference of the builder; the model's weak reference is the object number.
    The doctor is modelled by the event trace of the state, below. *)
Record cache := Cache {
  artifacts    : gmap addr art;          (* :97-101  artifacts *)
  dyn_states   : gmap addr dst;          (* :103-109 dyn_states *)
  dependents   : gmap addr (gset addr);  (* :111-118 dependents *)
  dependencies : gmap addr (gset addr);  (* :120-126 dependencies *)
  leafs        : gset addr;              (* :128-134 known_leaf_builder *)
  known        : gmap addr obj;          (* :136-143 known_builders *)
}.

(** [RawCache::new] (src/cache/internal.rs:174-185, 205-214). *)
Definition empty_cache : cache := Cache ∅ ∅ ∅ ∅ ∅ ∅.

(** Events of a run.  [EResolve], [EBuilt], [EInvalidate] and [EClear] are the
    calls of the [Doctor] (src/diagnostics/mod.rs:68-110); [ECall], [EGot] and
    [EFailed] are ghost: a builder's [build] is entered, a resolve returns to
    the builder, a build returned an error. *)
Inductive event :=
| ECall (u : obj)
| EResolve (u w : obj)
| EGot (u w : obj) (r : rval)
| EBuilt (u : obj) (b : bin)
| EFailed (u : obj) (e : val)
| EInvalidate (o : obj)
| EClear.

(** The whole state: the cache, the builder objects that exist or existed
    (definition and address), which of them are alive (a strong reference is
    left), counters for fresh objects and bins, the clock of the oracles, and
    ghosts: the builders being built (innermost first), whether a builder was
    ever entered while being built already, and the trace (newest first). *)
Record st := St {
  ch    : cache;
  objs  : gmap obj (bdef * addr);
  alive : gset obj;
  nobj  : N;
  nbin  : N;
  tick  : nat;
  stack : list obj;
  reent : bool;
  trace : list event;
}.

Definition init_st : st := St empty_cache ∅ ∅ 0%N 0%N 0 [] false [].

(** Which artifact cans: shared ([Rc]/[Arc], clonable bins, no mutable access)
    or boxed ([Box], no clonable bins, mutable access); src/canning.rs:394-609. *)
Inductive kind := Shared | Boxed.

(** The environment: the outside world and the allocator, the order in which
    hash sets are iterated (a priority for each element, by clock, by nested
    loop and by iteration), debug assertions on/off, the kind of cans. *)
Record env := Env {
  e_ask  : nat → N;
  e_prio : nat → nat → nat → N → N;
  e_dbg  : bool;
  e_kind : kind;
}.

(** Panic sites: a user builder (its [build] or [init_dyn_state]); indexing
    [known_builders] in garbage_collection (internal.rs:901); the [expect] on
    the counterpart map (internal.rs:819-820); any [debug_assert!]; a failed
    downcast; an [unwrap] on a missing entry. *)
Inductive pkind := PkUser | PkGcIndex | PkCounterpart | PkDebug | PkDowncast | PkUnwrap.
Global Instance pkind_eq_dec : EqDecision pkind.
Proof. solve_decision. Defined.

Inductive outcome (A : Type) :=
| Done (a : A) (s : st)      (* returned *)
| Panic (k : pkind) (s : st) (* panicked, with the state at that point *)
| NoFuel                     (* recursion deeper than the fuel *)
| Illegal.                   (* excluded by Rust's ownership rules *)
Global Arguments Done {A} a s.
Global Arguments Panic {A} k s.
Global Arguments NoFuel {A}.
Global Arguments Illegal {A}.

(** Field updates. *)
Definition set_artifacts f (c : cache) := Cache (f (artifacts c)) (dyn_states c) (dependents c) (dependencies c) (leafs c) (known c).
Definition set_dyn_states f (c : cache) := Cache (artifacts c) (f (dyn_states c)) (dependents c) (dependencies c) (leafs c) (known c).
Definition set_dependents f (c : cache) := Cache (artifacts c) (dyn_states c) (f (dependents c)) (dependencies c) (leafs c) (known c).
Definition set_dependencies f (c : cache) := Cache (artifacts c) (dyn_states c) (dependents c) (f (dependencies c)) (leafs c) (known c).
Definition set_leafs f (c : cache) := Cache (artifacts c) (dyn_states c) (dependents c) (dependencies c) (f (leafs c)) (known c).
Definition set_known f (c : cache) := Cache (artifacts c) (dyn_states c) (dependents c) (dependencies c) (leafs c) (f (known c)).

Definition set_ch (c : cache) (s : st) := St c (objs s) (alive s) (nobj s) (nbin s) (tick s) (stack s) (reent s) (trace s).
Definition set_alive (x : gset obj) (s : st) := St (ch s) (objs s) x (nobj s) (nbin s) (tick s) (stack s) (reent s) (trace s).
Definition set_nbin (x : N) (s : st) := St (ch s) (objs s) (alive s) (nobj s) x (tick s) (stack s) (reent s) (trace s).
Definition set_stack (x : list obj) (s : st) := St (ch s) (objs s) (alive s) (nobj s) (nbin s) (tick s) x (reent s) (trace s).
Definition set_reent (x : bool) (s : st) := St (ch s) (objs s) (alive s) (nobj s) (nbin s) (tick s) (stack s) x (trace s).
Definition log (e : event) (s : st) := St (ch s) (objs s) (alive s) (nobj s) (nbin s) (tick s) (stack s) (reent s) (e :: trace s).
Definition tock (s : st) := St (ch s) (objs s) (alive s) (nobj s) (nbin s) (S (tick s)) (stack s) (reent s) (trace s).
