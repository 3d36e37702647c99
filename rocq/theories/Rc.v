(** Reference counting, cans and blueprints: src/canning.rs and
    src/blueprint.rs, on a model of [Rc], [Arc] and [Box] of the standard
    library.

    The standard library is modelled by its documented behaviour: an [Rc] points
    to an allocation with a strong and a weak count; the content is dropped with
    the last strong reference, the allocation is freed when both counts are 0.
    [Arc] is the same (the model is sequential: concurrent counts are not
    modelled).  A [Box] is an allocation with exactly one owner; there is no
    operation to clone or downgrade it. *)
From Verif Require Export Types.

(** Which smart pointer: src/canning.rs:394-481 ([Rc<dyn Any>]), 552-609
    ([Arc<dyn Any + Send + Sync>]), 489-541 ([Box<dyn Any>]). *)
Inductive ptrkind := PRc | PArc | PBox.
Global Instance ptrkind_eq_dec : EqDecision ptrkind.
Proof. solve_decision. Defined.

(** The static type of a smart pointer: a bin [Rc<T>]; a can [Rc<dyn Any>], whose
    vtable has the type id [t]; an unsized bin [Rc<dyn Builder>] with the vtable
    of [t]; a weak can [Weak<dyn Any>] (src/canning.rs:88-362). *)
Inductive view := AsBin (t : ty) | AsCan (t : ty) | AsUns (t : ty) | AsWeak (t : ty).
Definition view_ty (v : view) : ty := match v with AsBin t | AsCan t | AsUns t | AsWeak t => t end.
Definition view_weak (v : view) : bool := match v with AsWeak _ => true | _ => false end.

(** One smart pointer value.  [h_id] is ghost: it names the allocation. *)
Record hnd := Hnd { h_kind : ptrkind; h_view : view; h_ptr : addr; h_id : N }.
Definition h_ty (x : hnd) : ty := view_ty (h_view x).
Definition is_weak (x : hnd) : bool := view_weak (h_view x).
Definition is_strong (x : hnd) : bool := negb (is_weak x).

(** An allocation: ghost name, type and value of the content, the smart pointers
    that the content owns (such as the blueprints a builder keeps), counts. *)
Record blk := Blk { k_id : N; k_kind : ptrkind; k_ty : ty; k_val : val; k_owns : list hnd; k_strong : nat; k_weak : nat }.
Record mem := Mem { heap : gmap addr blk; next : N }.

Definition put (p : addr) (b : blk) (m : mem) : mem := Mem (<[p := b]> (heap m)) (next m).
Definition free (p : addr) (m : mem) : mem := Mem (delete p (heap m)) (next m).

(** [Rc::new], [Arc::new], [Box::new] ([into_bin], src/canning.rs:447-449,
    531-533, 600-602): an allocation at any free address [p]. *)
Definition ptr_new (k : ptrkind) (p : addr) (t : ty) (v : val) (owns : list hnd) (m : mem) : option (hnd * mem) :=
  match heap m !! p with
  | Some _ => None
  | None => Some (Hnd k (AsBin t) p (next m),
                  Mem (<[p := Blk (next m) k t v owns 1 0]> (heap m)) (N.succ (next m)))
  end.

(** [Clone] of [Rc], [Arc] and of their weak pointers. *)
Definition ptr_clone (x : hnd) (m : mem) : option (hnd * mem) :=
  match h_kind x, heap m !! h_ptr x with
  | PBox, _ | _, None => None
  | _, Some b =>
    Some (x, put (h_ptr x)
      (if is_weak x then Blk (k_id b) (k_kind b) (k_ty b) (k_val b) (k_owns b) (k_strong b) (S (k_weak b))
       else Blk (k_id b) (k_kind b) (k_ty b) (k_val b) (k_owns b) (S (k_strong b)) (k_weak b)) m)
  end.

(** [CanStrong::downgrade] (src/canning.rs:403-405, 561-563). *)
Definition can_downgrade (x : hnd) (m : mem) : option (hnd * mem) :=
  match h_kind x, h_view x, heap m !! h_ptr x with
  | PRc, AsCan t, Some b | PArc, AsCan t, Some b =>
    Some (Hnd (h_kind x) (AsWeak t) (h_ptr x) (h_id x),
          put (h_ptr x) (Blk (k_id b) (k_kind b) (k_ty b) (k_val b) (k_owns b) (k_strong b) (S (k_weak b))) m)
  | _, _, _ => None
  end.

(** [CanStrong::upgrade_from_weak] (src/canning.rs:407-409, 565-567): the outer
    [None] is a misuse, the inner one is the [None] of [Weak::upgrade]. *)
Definition can_upgrade (x : hnd) (m : mem) : option (option hnd * mem) :=
  match h_view x, heap m !! h_ptr x with
  | AsWeak t, Some b =>
    match k_strong b with
    | O => Some (None, m)
    | S n => Some (Some (Hnd (h_kind x) (AsCan t) (h_ptr x) (h_id x)),
                   put (h_ptr x) (Blk (k_id b) (k_kind b) (k_ty b) (k_val b) (k_owns b) (S (S n)) (k_weak b)) m)
    end
  | _, _ => None
  end.

(** Dropping smart pointers, one after the other.  With the last strong
    reference the content is dropped, i.e. what it owns.  [None] if a pointer
    dangles. *)
Definition settle (p : addr) (b : blk) (m : mem) : mem :=
  match k_strong b, k_weak b with O, O => free p m | _, _ => put p b m end.
Fixpoint drop_loop (fuel : nat) (todo : list hnd) (m : mem) : option mem :=
  match todo with
  | [] => Some m
  | x :: todo =>
    match fuel, heap m !! h_ptr x with
    | S fuel, Some b =>
      if is_weak x then
        match k_weak b with
        | O => None
        | S n => drop_loop fuel todo (settle (h_ptr x) (Blk (k_id b) (k_kind b) (k_ty b) (k_val b) (k_owns b) (k_strong b) n) m)
        end
      else
        match k_strong b with
        | O => None
        | S O => drop_loop fuel (k_owns b ++ todo) (settle (h_ptr x) (Blk (k_id b) (k_kind b) (k_ty b) (k_val b) [] 0 (k_weak b)) m)
        | S n => drop_loop fuel todo (settle (h_ptr x) (Blk (k_id b) (k_kind b) (k_ty b) (k_val b) (k_owns b) n (k_weak b)) m)
        end
    | _, _ => None
    end
  end.
(** All smart pointers owned by contents. *)
Definition owned (h : gmap addr blk) : list hnd := mjoin ((λ x, k_owns x.2) <$> map_to_list h).
Definition ptr_drop (xs : list hnd) (m : mem) : option mem := drop_loop (length xs + length (owned (heap m))) xs m.

(** [CanSized::from_bin] (src/canning.rs:453-455, 538-540, 606-608): unsizing
    [Rc<T>] to [Rc<dyn Any>] attaches the vtable of [T]. *)
Definition from_bin (x : hnd) : hnd := Hnd (h_kind x) (AsCan (h_ty x)) (h_ptr x) (h_id x).
(** [CanUnsized::into_unsized] (src/canning.rs:420-438, 503-515, 578-590). *)
Definition bin_unsized (x : hnd) : hnd := Hnd (h_kind x) (AsUns (h_ty x)) (h_ptr x) (h_id x).
(** [Can::bin_as_ptr] (src/canning.rs:412-418, 495-501, 570-576) and
    [CanBase::can_as_ptr] (394-398, 489-493, 552-556). *)
Definition bin_as_ptr (x : hnd) : addr := h_ptr x.
Definition can_as_ptr (x : hnd) : addr := h_ptr x.
(** [downcast_can] (src/canning.rs:450-452, 534-537, 603-605): compares the type
    id in the vtable; a can that is not of type [t] is dropped. *)
Definition downcast_can (t : ty) (x : hnd) : option hnd :=
  if (h_ty x =? t)%N then Some (Hnd (h_kind x) (AsBin t) (h_ptr x) (h_id x)) else None.
(** [downcast_can_ref] (src/canning.rs:440-444, 518-522, 593-597),
    [downcast_can_mut] (524-528): the content, if it is of type [t]. *)
Definition downcast_can_ref (t : ty) (x : hnd) (m : mem) : option val :=
  if (h_ty x =? t)%N then match heap m !! h_ptr x with Some b => Some (k_val b) | None => None end else None.

(** [CanBuilder::can_unsized] (src/canning.rs:458-483): a clone of the bin as
    [Rc<dyn Builder>], and the bin itself as [Rc<dyn Any>].  There is no [impl]
    for [Arc] (it is commented out, 611-636). *)
Definition can_unsized (x : hnd) (m : mem) : option (hnd * hnd * mem) :=
  match h_kind x, h_view x with
  | PRc, AsBin _ =>
    match ptr_clone x m with
    | Some (y, m) => Some (bin_unsized y, from_bin x, m)
    | None => None
    end
  | _, _ => None
  end.

(** ** Blueprints (src/blueprint.rs) *)

(** What a user or the cache holds: [Blueprint] (136-138), [BlueprintUnsized]
    (304-308), [BlueprintDyn] (582-588), [BuilderArtifact] (src/canning.rs:658),
    or a single smart pointer. *)
Inductive thing :=
| TBp (builder : hnd)
| TBpu (builder canned : hnd)
| TDyn (builder canned : hnd)
| TArt (can : hnd)
| TPtr (x : hnd).
Definition handles (x : thing) : list hnd :=
  match x with TBp b | TArt b | TPtr b => [b] | TBpu b c | TDyn b c => [b; c] end.

(** [Promise::id] and the [id] methods (blueprint.rs:180-182, 381-383,
    664-666). *)
Definition bp_id (x : thing) : option addr :=
  match x with
  | TBp b => Some (bin_as_ptr b)
  | TBpu _ c | TDyn _ c => Some (can_as_ptr c)
  | _ => None
  end.
(** [PartialEq] (blueprint.rs:255-259, 499-503, 755-762) and what [Hash] feeds to
    the hasher (249-253, 493-497, 746-753). *)
Definition bp_eq (x y : thing) : bool :=
  match bp_id x, bp_id y with Some a, Some b => (a =? b)%N | _, _ => false end.
Definition bp_hash (x : thing) : option addr := bp_id x.
(** [Promise::builder] (blueprint.rs:197-201, 469-473, 717-721): the content. *)
Definition bp_builder (x : thing) (m : mem) : option val :=
  match x with
  | TBp b | TBpu b _ | TDyn b _ => match heap m !! h_ptr b with Some k => Some (k_val k) | None => None end
  | _ => None
  end.
(** [Promise::canned] (blueprint.rs:203-207, 475-479, 723-727). *)
Definition bp_canned (x : thing) (m : mem) : option (hnd * mem) :=
  match x with
  | TBp b => match ptr_clone b m with Some (y, m) => Some (from_bin y, m) | None => None end
  | TBpu _ c | TDyn _ c => ptr_clone c m
  | _ => None
  end.

(** [BlueprintUnsized::new_binned] (blueprint.rs:339-344), also [From<Blueprint>]
    (520-527). *)
Definition bpu_binned (b : hnd) (m : mem) : option (thing * mem) :=
  match ptr_clone b m with Some (y, m) => Some (TBpu y (from_bin b), m) | None => None end.
(** [Blueprint::into_unsized] (blueprint.rs:230-236), by [new_binned] and
    [BlueprintUnsized::into_unsized] (362-372). *)
Definition bpu_into_unsized (x : thing) (m : mem) : option (thing * mem) :=
  match x with TBpu b c => Some (TBpu (bin_unsized b) c, m) | _ => None end.
Definition bp_into_unsized (x : thing) (m : mem) : option (thing * mem) :=
  match x with
  | TBp b => match bpu_binned b m with Some (y, m) => bpu_into_unsized y m | None => None end
  | _ => None
  end.
(** [BlueprintUnsized::from_sized] (blueprint.rs:427-440): the [builder] field is
    moved out, the [builder_canned] field is dropped. *)
Definition bpu_from_sized (x : thing) (m : mem) : option (thing * mem) :=
  match x with
  | TBpu b c =>
    match can_unsized b m with
    | Some (y, z, m) => match ptr_drop [c] m with Some m => Some (TBpu y z, m) | None => None end
    | None => None
    end
  | _ => None
  end.
(** [BlueprintUnsized::from_sized_bp] (blueprint.rs:442-455), the [From]s
    (535-555). *)
Definition bpu_from_sized_bp (x : thing) (m : mem) : option (thing * mem) :=
  match x with
  | TBp b => match can_unsized b m with Some (y, z, m) => Some (TBpu y z, m) | None => None end
  | _ => None
  end.
(** [BlueprintDyn::from_bp] (blueprint.rs:686-696), [From<Blueprint>]
    (788-797). *)
Definition dyn_from_bp (x : thing) (m : mem) : option (thing * mem) :=
  match x with
  | TBp b => match can_unsized b m with Some (y, z, m) => Some (TDyn y z, m) | None => None end
  | _ => None
  end.
(** [BlueprintDyn::into_unsized] (blueprint.rs:643-649). *)
Definition dyn_into_unsized (x : thing) (m : mem) : option (thing * mem) :=
  match x with TDyn b c => Some (TBpu b c, m) | _ => None end.
(** [Clone] (blueprint.rs:241-247, 482-489, 730-742), and the derived one of
    [BuilderArtifact]. *)
Definition thing_clone (x : thing) (m : mem) : option (thing * mem) :=
  match x with
  | TBp b => match ptr_clone b m with Some (b', m) => Some (TBp b', m) | None => None end
  | TArt b => match ptr_clone b m with Some (b', m) => Some (TArt b', m) | None => None end
  | TPtr b => match ptr_clone b m with Some (b', m) => Some (TPtr b', m) | None => None end
  | TBpu b c =>
    match ptr_clone b m with
    | Some (b', m) => match ptr_clone c m with Some (c', m) => Some (TBpu b' c', m) | None => None end
    | None => None
    end
  | TDyn b c =>
    match ptr_clone b m with
    | Some (b', m) => match ptr_clone c m with Some (c', m) => Some (TDyn b' c', m) | None => None end
    | None => None
    end
  end.

(** Conversions consume their argument. *)
Inductive converts : thing → mem → thing → mem → Prop :=
| cv_into_unsized x m y m' : bp_into_unsized x m = Some (y, m') → converts x m y m'
| cv_unsized b m y m' : bpu_binned b m = Some (y, m') → converts (TBp b) m y m'
| cv_bpu_unsized x m y m' : bpu_into_unsized x m = Some (y, m') → converts x m y m'
| cv_from_sized x m y m' : bpu_from_sized x m = Some (y, m') → converts x m y m'
| cv_from_sized_bp x m y m' : bpu_from_sized_bp x m = Some (y, m') → converts x m y m'
| cv_from_bp x m y m' : dyn_from_bp x m = Some (y, m') → converts x m y m'
| cv_dyn_unsized x m y m' : dyn_into_unsized x m = Some (y, m') → converts x m y m'.

(** [BuilderArtifact::from_bin] (src/canning.rs:687-689, 716-718): the can of the
    blueprint, which is dropped. *)
Definition art_from_bin (x : thing) (m : mem) : option (thing * mem) :=
  match x with
  | TBp _ | TBpu (Hnd _ (AsBin _) _ _) _ =>
    match bp_canned x m with
    | Some (c, m) => match ptr_drop (handles x) m with Some m => Some (TArt c, m) | None => None end
    | None => None
    end
  | _ => None
  end.
(** [BuilderArtifact::downcast_can] (src/canning.rs:682-686, 711-715), as a
    [Blueprint] or as a [BlueprintUnsized]. *)
Definition art_downcast_bp (t : ty) (x : thing) : option thing :=
  match x with
  | TArt c => match downcast_can t c with Some b => Some (TBp b) | None => None end
  | _ => None
  end.
Definition art_downcast_bpu (t : ty) (x : thing) (m : mem) : option (thing * mem) :=
  match x with
  | TArt c => match downcast_can t c with Some b => bpu_binned b m | None => None end
  | _ => None
  end.

(** ** Histories *)

(** The world: the memory, and everything that is held outside of it (by the
    user, by the cache). *)
Record world := World { mm : mem; pool : list thing }.
Definition init_world : world := World (Mem ∅ 0) [].

(** One operation of the program.  A builder (or other content) is constructed
    from things the program gives away. *)
Inductive wstep : world → world → Prop :=
| w_new k p t v ys pl m x m' :
    ptr_new k p t v (ys ≫= handles) m = Some (x, m') →
    wstep (World m (ys ++ pl)) (World m' (TPtr x :: pl))
| w_bp_new k p t v ys pl m x m' :                        (* Blueprint::new, 143-147 *)
    k ≠ PBox → ptr_new k p t v (ys ≫= handles) m = Some (x, m') →
    wstep (World m (ys ++ pl)) (World m' (TBp x :: pl))
| w_dyn_new k p t v ys pl m x m' y z m'' :               (* BlueprintDyn::new, 607-622 *)
    ptr_new k p t v (ys ≫= handles) m = Some (x, m') → can_unsized x m' = Some (y, z, m'') →
    wstep (World m (ys ++ pl)) (World m'' (TDyn y z :: pl))
| w_bpu_new k p t v ys pl m x m' y m'' :                 (* BlueprintUnsized::new, 324-331 *)
    ptr_new k p t v (ys ≫= handles) m = Some (x, m') → bpu_binned x m' = Some (y, m'') →
    wstep (World m (ys ++ pl)) (World m'' (y :: pl))
| w_new_unsized k p t v ys pl m x m' y z m'' :           (* BlueprintUnsized::new_unsized, 411-422 *)
    ptr_new k p t v (ys ≫= handles) m = Some (x, m') → can_unsized x m' = Some (y, z, m'') →
    wstep (World m (ys ++ pl)) (World m'' (TBpu y z :: pl))
| w_clone x pl m y m' :
    x ∈ pl → thing_clone x m = Some (y, m') → wstep (World m pl) (World m' (y :: pl))
| w_drop x pl m m' :
    ptr_drop (handles x) m = Some m' → wstep (World m (x :: pl)) (World m' pl)
| w_convert x pl m y m' :
    converts x m y m' → wstep (World m (x :: pl)) (World m' (y :: pl))
| w_canned x pl m c m' :
    x ∈ pl → bp_canned x m = Some (c, m') → wstep (World m pl) (World m' (TPtr c :: pl))
| w_from_bin k t p i pl m :
    wstep (World m (TPtr (Hnd k (AsBin t) p i) :: pl)) (World m (TPtr (from_bin (Hnd k (AsBin t) p i)) :: pl))
| w_downcast t k t' p i y pl m :
    downcast_can t (Hnd k (AsCan t') p i) = Some y →
    wstep (World m (TPtr (Hnd k (AsCan t') p i) :: pl)) (World m (TPtr y :: pl))
| w_downgrade x pl m y m' :
    TPtr x ∈ pl → can_downgrade x m = Some (y, m') → wstep (World m pl) (World m' (TPtr y :: pl))
| w_upgrade x pl m y m' :
    TPtr x ∈ pl → can_upgrade x m = Some (Some y, m') → wstep (World m pl) (World m' (TPtr y :: pl))
| w_art x pl m y m' :
    art_from_bin x m = Some (y, m') → wstep (World m (x :: pl)) (World m' (y :: pl))
| w_art_bp t x pl m y :
    art_downcast_bp t x = Some y → wstep (World m (x :: pl)) (World m (y :: pl))
| w_art_bpu t x pl m y m' :
    art_downcast_bpu t x m = Some (y, m') → wstep (World m (x :: pl)) (World m' (y :: pl))
| w_binned k t p i pl m :                                (* Blueprint::new_binned, 155-159 *)
    k ≠ PBox → wstep (World m (TPtr (Hnd k (AsBin t) p i) :: pl)) (World m (TBp (Hnd k (AsBin t) p i) :: pl))
| w_take p b x pl m y m' :                               (* cloning what is in a field of a content *)
    heap m !! p = Some b → x ∈ k_owns b → ptr_clone x m = Some (y, m') → wstep (World m pl) (World m' (TPtr y :: pl))
| w_swap pl pl' m : pl ≡ₚ pl' → wstep (World m pl) (World m pl').
Definition wreach (w : world) : Prop := rtc wstep init_world w.
