(** * DynTable: containers whose table is a trait object, and the functions that the macros
    [into_dyn!] and [from_dyn!] of /repo/src/lib.rs expand to.

    How the macros expand is in MacroRules.v. *)

From Verif Require Export VecDyn.

Section DynTable.
(** The concrete table types, by [TypeId]. *)
Context (Tab : tyid -> Type).

(** [Box<dyn Trait>] or [&dyn Trait] of a table: the table and the type it has.  (Simplification:
    the box of the table is not in the allocator ledger, as for [VecDyn].) *)
Definition dyn_table : Type := {k : tyid & Tab k}.

(** The coercion to a trait object, src/lib.rs:156, 170, 174. *)
Definition to_dyn (k : tyid) (v : Tab k) : dyn_table := existT Tab k v.

(** A method call on a trait object runs the method of the table inside. *)
Global Instance dyn_drop `{D : forall k, HasDrop (Tab k)} : HasDrop dyn_table :=
  {| drop_fn d := drop_fn (projT2 d) |}.
Global Instance dyn_clone `{D : forall k, HasClone (Tab k)} : HasClone dyn_table :=
  {| clone_fn d := clone_fn (projT2 d); clone_from_fn d := clone_from_fn (projT2 d);
     clone_into_raw_fn d := clone_into_raw_fn (projT2 d) |}.
Global Instance dyn_eq `{D : forall k, HasPartialEq (Tab k)} : HasPartialEq dyn_table :=
  {| eq_fn d := eq_fn (projT2 d) |}.
Global Instance dyn_hash `{D : forall k, HasHash (Tab k)} : HasHash dyn_table :=
  {| hash_fn d := hash_fn (projT2 d) |}.
Global Instance dyn_debug `{D : forall k, HasDebug (Tab k)} : HasDebug dyn_table :=
  {| fmt_fn d := fmt_fn (projT2 d) |}.

(** downcast_rs, [Box<dyn Trait>::downcast::<T>()] ([impl_downcast!], dync-derive/src/lib.rs:560 and
    src/traits.rs): succeeds iff the table has that type. *)
Definition dyn_downcast (k : tyid) (d : dyn_table) : option (Tab k) :=
  match N.eq_dec (projT1 d) k with
  | left e => Some (eq_rect (projT1 d) Tab (projT2 d) k e)
  | right _ => None
  end.

(** src/lib.rs:150-161, [into_dyn!] for [VecCopy] and [VecDyn]. *)
Definition vc_into_dyn {k : tyid} (vec : veccopy (Tab k)) : veccopy dyn_table :=
  let '(data, vtable) := vc_into_raw_parts vec in vc_from_raw_parts data (to_dyn k vtable).
Definition vd_into_dyn {k : tyid} (vec : vecdyn (Tab k)) : vecdyn dyn_table :=
  let '(data, vtable) := vd_into_raw_parts vec in vd_from_raw_parts data (to_dyn k vtable).

(** src/lib.rs:162-184, [into_dyn!] for the four slice types.  (The table reference is in the model
    just the table.) *)
Definition sl_into_dyn {k : tyid} (s : slicecopy (Tab k)) : slicecopy dyn_table :=
  let '(data, elem, vtable) := sl_into_raw_parts s in sl_from_raw_parts data elem (to_dyn k vtable).

(** src/lib.rs:88-99, [from_dyn!] for [VecCopy] and [VecDyn].  When the [unwrap] panics, the buffer
    [data] is a local of the function and is dropped while unwinding; a [VecVoid] frees its memory
    but does not know how to drop elements. *)
Definition from_dyn_table (P : profile) (k : tyid) (data : vecvoid) (vtable : dyn_table) (w : world)
  : outcome (Tab k) * world :=
  match dyn_downcast k vtable with
  | Some v => (Ret v, w)
  | None => let '(o, w') := vv_drop P data w in (unwind PAssert o, w')
  end.
Definition vc_from_dyn (P : profile) (k : tyid) (vec : veccopy dyn_table) (w : world)
  : outcome (veccopy (Tab k)) * world :=
  let '(data, vtable) := vc_into_raw_parts vec in
  let '(o, w') := from_dyn_table P k data vtable w in
  (let! v := o in Ret (vc_from_raw_parts data v), w').
Definition vd_from_dyn (P : profile) (k : tyid) (vec : vecdyn dyn_table) (w : world)
  : outcome (vecdyn (Tab k)) * world :=
  let '(data, vtable) := vd_into_raw_parts vec in
  let '(o, w') := from_dyn_table P k data vtable w in
  (let! v := o in Ret (vd_from_raw_parts data v), w').

End DynTable.
