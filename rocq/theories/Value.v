(** * Value: /repo/src/vtable.rs, /repo/src/traits.rs, /repo/src/value.rs and the parts of
    /repo/src/bytes.rs and /repo/src/copy_value.rs they use. *)

From Verif Require Export SliceCopy.

(** ** Function pointers (traits.rs) *)

(** A function pointer is named by the type whose generated function it points to.  The pointer
    types of src/traits.rs:106-112 are distinct Rust types, so they are distinct here. *)

(** [DropFn]: [<T as DropBytes>::drop_bytes], or [drop_copy] (src/value.rs:829). *)
Inductive drop_ptr : Type := DropOf (t : tyid) | DropCopy.
(** [CloneFn]: [<T as CloneBytes>::clone_bytes]. *)
Inductive clone_ptr : Type := CloneOf (t : tyid).
(** [CloneFromFn]: [<T as CloneBytes>::clone_from_bytes]. *)
Inductive clone_from_ptr : Type := CloneFromOf (t : tyid).
(** [CloneIntoRawFn]: [<T as CloneBytes>::clone_into_raw_bytes]. *)
Inductive clone_raw_ptr : Type := CloneRawOf (t : tyid).
(** [EqFn], [HashFn], [FmtFn]. *)
Inductive eq_ptr : Type := EqOf (t : tyid).
Inductive hash_ptr : Type := HashOf (t : tyid).
Inductive fmt_ptr : Type := FmtOf (t : tyid).

(** A [Box<[MaybeUninit<u8>]>]. *)
Record byte_box : Type := ByteBox { bb_blk : option N; bb_bytes : list mbyte }.

(** A [Box<T>] in user hands. *)
Record tbox : Type := TBoxed { tb_blk : option N; tb_val : payload }.

Section Calls.
Context (G : tenv).

(** src/traits.rs:49-55, [drop_bytes]; src/value.rs:829, [drop_copy]. *)
Definition call_drop (p : drop_ptr) (bs : list mbyte) (w : world) : outcome unit * world :=
  match p with
  | DropCopy => (Ret tt, w)
  | DropOf t =>
      match from_bytes G t bs with
      | Ret v => drop_val G t v w
      | o => (retype o, w)
      end
  end.

(** [Box::new(v)] for a value of type [t]. *)
Definition box_new (t : tyid) (v : payload) (w : world) : tbox * world :=
  let '(b, w') := alloc (t_size (G t)) (t_align (G t)) w in (TBoxed b v, w').

(** src/bytes.rs:104-110, [box_into_box_bytes]. *)
Definition box_into_box_bytes (t : tyid) (b : tbox) : byte_box :=
  ByteBox (tb_blk b) (enc G t (tb_val b)).

(** src/bytes.rs:112-115, [box_from_box_bytes], the content being read at type [T]. *)
Definition box_from_box_bytes (t : tyid) (b : byte_box) : outcome tbox :=
  let! v := read_val G t (bb_bytes b) in Ret (TBoxed (bb_blk b) v).

(** Dropping a [Box<T>]: the value, then the block (also when the destructor panics). *)
Definition tbox_drop (t : tyid) (b : tbox) (w : world) : outcome unit * world :=
  match drop_val G t (tb_val b) w with
  | (Ret _, w1) => dealloc (tb_blk b) (t_size (G t)) (t_align (G t)) w1
  | (Panic p, w1) =>
      let '(o, w2) := dealloc (tb_blk b) (t_size (G t)) (t_align (G t)) w1 in (unwind p o, w2)
  | r => r
  end.

(** Dropping a [Box<[MaybeUninit<u8>]>] as such: its layout is [len] bytes of alignment 1. *)
Definition byte_box_drop (b : byte_box) (w : world) : outcome unit * world :=
  dealloc (bb_blk b) (lenN (bb_bytes b)) 1 w.

(** src/traits.rs:58-62, [clone_bytes]. *)
Definition call_clone (p : clone_ptr) (src : list mbyte) (w : world)
  : outcome byte_box * world :=
  let '(CloneOf t) := p in
  match from_bytes G t src with
  | Ret v =>
      match clone_val G t v w with
      | (Ret c, w1) =>
          let '(b, w2) := box_new t c w1 in (Ret (box_into_box_bytes t b), w2)
      | (o, w1) => (retype o, w1)
      end
  | o => (retype o, w)
  end.

(** Rust's [*place = value] for a value of type [t] whose old value is [old]: the old value is
    dropped, and the new one is in place afterwards even if that panics. *)
Definition assign_val (t : tyid) (old : payload) (w : world) : outcome unit * world :=
  drop_val G t old w.

(** src/traits.rs:63-68, [clone_from_bytes]: the new bytes of [dst].  [T::clone_from] is the
    default of [Clone]: [*self = source.clone()]. *)
Definition call_clone_from (p : clone_from_ptr) (dst src : list mbyte) (w : world)
  : outcome unit * list mbyte * world :=
  let '(CloneFromOf t) := p in
  match from_bytes G t src with
  | Ret v =>
      match from_bytes G t dst with
      | Ret old =>
          match clone_val G t v w with
          | (Ret c, w1) => let '(o, w2) := assign_val t old w1 in (o, enc G t c, w2)
          | (o, w1) => (retype o, dst, w1)
          end
      | o => (retype o, dst, w)
      end
  | o => (retype o, dst, w)
  end.

(** src/traits.rs:69-76, [clone_into_raw_bytes]: the new bytes of [dst], whose old content is not
    dropped.  When the lengths differ [copy_from_slice] panics and the clone, still a local, is
    dropped. *)
Definition call_clone_into_raw (p : clone_raw_ptr) (src dst : list mbyte) (w : world)
  : outcome (list mbyte) * world :=
  let '(CloneRawOf t) := p in
  match from_bytes G t src with
  | Ret v =>
      match clone_val G t v w with
      | (Ret c, w1) =>
          match bytes_copy_from_slice dst (enc G t c) with
          | Ret bs => (Ret bs, w1)
          | Panic q => let '(o, w2) := drop_val G t c w1 in (unwind q o, w2)
          | o => (o, w1)
          end
      | (o, w1) => (retype o, w1)
      end
  | o => (retype o, w)
  end.

(** src/traits.rs:79-85, [eq_bytes]; the type's [eq] is a pure function that does not panic. *)
Definition call_eq (p : eq_ptr) (a b : list mbyte) : outcome bool :=
  let '(EqOf t) := p in
  let! x := from_bytes G t a in
  let! y := from_bytes G t b in
  Ret (t_eq (G t) x y).

(** src/traits.rs:87-93, [hash_bytes]: what is fed to the hasher. *)
Definition call_hash (p : hash_ptr) (bs : list mbyte) : outcome (list N) :=
  let '(HashOf t) := p in
  let! x := from_bytes G t bs in Ret (t_hash (G t) x).

(** src/traits.rs:95-104, [fmt_bytes]: what is written to the formatter. *)
Definition call_fmt (p : fmt_ptr) (bs : list mbyte) : outcome string :=
  let '(FmtOf t) := p in
  let! x := from_bytes G t bs in Ret (t_fmt (G t) x).

End Calls.

(** ** Tables (traits.rs, vtable.rs) *)

(** src/traits.rs:116-150, the [Has*] traits. *)
Class HasDrop (V : Type) : Type := { drop_fn : V -> drop_ptr }.
Class HasClone (V : Type) : Type := {
  clone_fn : V -> clone_ptr;
  clone_from_fn : V -> clone_from_ptr;
  clone_into_raw_fn : V -> clone_raw_ptr
}.
Class HasPartialEq (V : Type) : Type := { eq_fn : V -> eq_ptr }.
Class HasHash (V : Type) : Type := { hash_fn : V -> hash_ptr }.
Class HasDebug (V : Type) : Type := { fmt_fn : V -> fmt_ptr }.

(** src/vtable.rs:15-17, [VTable<T>] for every [T] (the bounds on [T] are a compiler matter). *)
Class VTable (V : Type) : Type := { build_vtable : tyid -> V }.

(** size_of and align_of of the table type, for the [Box] it lives in. *)
Class Sized (V : Type) : Type := { table_layout : layout }.

(** src/traits.rs:152-167, the built-in tables, and 170-221, their [build_vtable]. *)
Record DropVTable : Type := MkDropVTable { dv_0 : drop_ptr }.
Record CloneVTable : Type := MkCloneVTable {
  cv_0 : drop_ptr; cv_1 : clone_ptr; cv_2 : clone_from_ptr; cv_3 : clone_raw_ptr }.
Record PartialEqVTable : Type := MkPartialEqVTable { pv_0 : drop_ptr; pv_1 : eq_ptr }.
Record EqVTable : Type := MkEqVTable { ev_0 : drop_ptr; ev_1 : eq_ptr }.
Record HashVTable : Type := MkHashVTable { hv_0 : drop_ptr; hv_1 : hash_ptr }.
Record DebugVTable : Type := MkDebugVTable { bv_0 : drop_ptr; bv_1 : fmt_ptr }.
Record SendVTable : Type := MkSendVTable { sv_0 : drop_ptr }.
Record SyncVTable : Type := MkSyncVTable { yv_0 : drop_ptr }.

Global Instance DropVTable_build : VTable DropVTable :=
  {| build_vtable := fun t => MkDropVTable (DropOf t) |}.
Global Instance CloneVTable_build : VTable CloneVTable :=
  {| build_vtable := fun t => MkCloneVTable (DropOf t) (CloneOf t) (CloneFromOf t) (CloneRawOf t) |}.
Global Instance PartialEqVTable_build : VTable PartialEqVTable :=
  {| build_vtable := fun t => MkPartialEqVTable (DropOf t) (EqOf t) |}.
Global Instance EqVTable_build : VTable EqVTable :=
  {| build_vtable := fun t => MkEqVTable (DropOf t) (EqOf t) |}.
Global Instance HashVTable_build : VTable HashVTable :=
  {| build_vtable := fun t => MkHashVTable (DropOf t) (HashOf t) |}.
Global Instance DebugVTable_build : VTable DebugVTable :=
  {| build_vtable := fun t => MkDebugVTable (DropOf t) (FmtOf t) |}.
Global Instance SendVTable_build : VTable SendVTable :=
  {| build_vtable := fun t => MkSendVTable (DropOf t) |}.
Global Instance SyncVTable_build : VTable SyncVTable :=
  {| build_vtable := fun t => MkSyncVTable (DropOf t) |}.
(** src/vtable.rs:19-22, the table [()] of [Copy] types. *)
Global Instance unit_build : VTable unit := {| build_vtable := fun _ => tt |}.
(** src/vtable.rs:24-30, [(DropFn, V)]. *)
Global Instance pair_build {V} `{VTable V} : VTable (drop_ptr * V) :=
  {| build_vtable := fun t => (DropOf t, build_vtable t) |}.

(** src/traits.rs:223-244, [impl_has_drop!]: field 0. *)
Global Instance DropVTable_drop : HasDrop DropVTable := {| drop_fn := dv_0 |}.
Global Instance CloneVTable_drop : HasDrop CloneVTable := {| drop_fn := cv_0 |}.
Global Instance PartialEqVTable_drop : HasDrop PartialEqVTable := {| drop_fn := pv_0 |}.
Global Instance EqVTable_drop : HasDrop EqVTable := {| drop_fn := ev_0 |}.
Global Instance HashVTable_drop : HasDrop HashVTable := {| drop_fn := hv_0 |}.
Global Instance DebugVTable_drop : HasDrop DebugVTable := {| drop_fn := bv_0 |}.
Global Instance SendVTable_drop : HasDrop SendVTable := {| drop_fn := sv_0 |}.
Global Instance SyncVTable_drop : HasDrop SyncVTable := {| drop_fn := yv_0 |}.
(** src/traits.rs:246-282, the other accessors. *)
Global Instance CloneVTable_clone : HasClone CloneVTable :=
  {| clone_fn := cv_1; clone_from_fn := cv_2; clone_into_raw_fn := cv_3 |}.
Global Instance HashVTable_hash : HasHash HashVTable := {| hash_fn := hv_1 |}.
Global Instance PartialEqVTable_eq : HasPartialEq PartialEqVTable := {| eq_fn := pv_1 |}.
Global Instance EqVTable_eq : HasPartialEq EqVTable := {| eq_fn := ev_1 |}.
Global Instance DebugVTable_debug : HasDebug DebugVTable := {| fmt_fn := bv_1 |}.
(** src/value.rs:49-95, the accessors of [(DropFn, V)]. *)
Global Instance pair_drop {V} : HasDrop (drop_ptr * V) := {| drop_fn := fst |}.
Global Instance pair_clone {V} `{HasClone V} : HasClone (drop_ptr * V) :=
  {| clone_fn := fun p => clone_fn (snd p);
     clone_from_fn := fun p => clone_from_fn (snd p);
     clone_into_raw_fn := fun p => clone_into_raw_fn (snd p) |}.
Global Instance pair_hash {V} `{HasHash V} : HasHash (drop_ptr * V) :=
  {| hash_fn := fun p => hash_fn (snd p) |}.
Global Instance pair_eq {V} `{HasPartialEq V} : HasPartialEq (drop_ptr * V) :=
  {| eq_fn := fun p => eq_fn (snd p) |}.
Global Instance pair_debug {V} `{HasDebug V} : HasDebug (drop_ptr * V) :=
  {| fmt_fn := fun p => fmt_fn (snd p) |}.

(** Sizes of the tables: one word per function pointer. *)
Global Instance DropVTable_sized : Sized DropVTable := {| table_layout := (8, 8) |}.
Global Instance CloneVTable_sized : Sized CloneVTable := {| table_layout := (32, 8) |}.
Global Instance PartialEqVTable_sized : Sized PartialEqVTable := {| table_layout := (16, 8) |}.
Global Instance EqVTable_sized : Sized EqVTable := {| table_layout := (16, 8) |}.
Global Instance HashVTable_sized : Sized HashVTable := {| table_layout := (16, 8) |}.
Global Instance DebugVTable_sized : Sized DebugVTable := {| table_layout := (16, 8) |}.
Global Instance unit_sized : Sized unit := {| table_layout := (0, 1) |}.
Global Instance pair_sized {V} `{Sized V} : Sized (drop_ptr * V) :=
  {| table_layout := (8 + fst table_layout, 8) |}.

(** src/vtable.rs:36-44, [VTableRef]. *)
Inductive vtref (V : Type) : Type := VRef (v : V) | VBox (v : V).
Arguments VRef {V}. Arguments VBox {V}.

(** src/vtable.rs:95-104, [as_ref] (and 66-72, [deref]). *)
Definition vt_as_ref {V} (r : vtref V) : V := match r with VRef v => v | VBox v => v end.
(** src/vtable.rs:47-54, [take]; cloning a table copies its pointers. *)
Definition vt_take {V} (r : vtref V) : V := match r with VRef v => v | VBox v => v end.
(** src/vtable.rs:56-63, [into_owned]. *)
Definition vt_into_owned {V} (r : vtref V) : V := match r with VRef v => v | VBox v => v end.

(** ** Owned values (value.rs) *)

(** Where the bytes of a [Value<B, V>] live: [B = Box<[MaybeUninit<u8>]>] or
    [B = MaybeUninit<usize>]. *)
Inductive storage : Type := Boxed (b : option N) | Inline.

(** src/value.rs:97-106, [Value]; [vl_tblk] is the block of the boxed table. *)
Record value (V : Type) : Type := Value {
  vl_store : storage;
  vl_bytes : list mbyte;
  vl_type_id : tyid;
  vl_alignment : N;
  vl_tblk : option N;
  vl_table : V
}.
Arguments Value {V}. Arguments vl_store {V}. Arguments vl_bytes {V}. Arguments vl_type_id {V}.
Arguments vl_alignment {V}. Arguments vl_tblk {V}. Arguments vl_table {V}.

(** src/value.rs:454-464, [ValueRef]. *)
Record vref (V : Type) : Type := ValRef {
  vr_bytes : list mbyte;
  vr_type_id : tyid;
  vr_alignment : N;
  vr_vtable : vtref V
}.
Arguments ValRef {V}. Arguments vr_bytes {V}. Arguments vr_type_id {V}.
Arguments vr_alignment {V}. Arguments vr_vtable {V}.

(** src/value.rs:615-624, [ValueMut]; mutating methods return the new bytes. *)
Record vmut (V : Type) : Type := ValMut {
  vm_bytes : list mbyte;
  vm_type_id : tyid;
  vm_alignment : N;
  vm_vtable : vtref V
}.
Arguments ValMut {V}. Arguments vm_bytes {V}. Arguments vm_type_id {V}.
Arguments vm_alignment {V}. Arguments vm_vtable {V}.

(** size_of::<usize>(). *)
Definition usize_bytes : N := 8.

(** src/copy_value.rs:76-94 and 109-114, [DropAsAligned]. *)
Definition drop_as_aligned (s : storage) (len alignment : N) (w : world) : outcome unit * world :=
  match s with
  | Inline => (Ret tt, w)
  | Boxed b =>
      match eval_align alignment with
      | None => (Panic PUnreachable, w)
      | Some tk => dealloc b (len / tk * tk) tk w
      end
  end.

(** src/value.rs:22-30, [Error::MismatchedTypes]. *)
Inductive mismatch : Type := MismatchedTypes (expected actual : tyid).

Section Values.
Context {V : Type} `{Sized V} (G : tenv).

(** [Ptr::new(table)] and dropping the [Ptr]. *)
Definition table_new (w : world) : option N * world :=
  alloc (fst (table_layout (V := V))) (snd (table_layout (V := V))) w.
Definition table_free (b : option N) (w : world) : outcome unit * world :=
  dealloc b (fst (table_layout (V := V))) (snd (table_layout (V := V))) w.

(** src/value.rs:200-213, [BoxValue::new]. *)
Definition bv_new `{VTable V} (t : tyid) (x : payload) (w : world) : value V * world :=
  let '(b, w1) := box_new G t x w in
  let bytes := box_into_box_bytes G t b in
  let '(tb, w2) := table_new w1 in
  (Value (Boxed (bb_blk bytes)) (bb_bytes bytes) t (t_align (G t)) tb (build_vtable t), w2).

(** src/value.rs:111-125, [SmallValue::try_new]; src/bytes.rs:117-128, [try_into_usize].  The
    value has been wrapped in [ManuallyDrop], so on failure it is never dropped. *)
Definition sv_try_new `{VTable V} (t : tyid) (x : payload) (w : world)
  : option (value V) * world :=
  if t_size (G t) =? usize_bytes then
    let '(tb, w1) := table_new w in
    (Some (Value Inline (enc G t x) t (t_align (G t)) tb (build_vtable t)), w1)
  else (None, w).

(** src/value.rs:127-133, [SmallValue::new]. *)
Definition sv_new `{VTable V} (t : tyid) (x : payload) (w : world)
  : outcome (value V) * world :=
  match sv_try_new t x w with
  | (Some v, w') => (Ret v, w')
  | (None, w') => (Panic PAssert, w')
  end.

(** src/value.rs:278-297, [as_ref], [as_mut]. *)
Definition vl_as_ref (v : value V) : vref V :=
  ValRef (vl_bytes v) (vl_type_id v) (vl_alignment v) (VRef (vl_table v)).
Definition vl_as_mut (v : value V) : vmut V :=
  ValMut (vl_bytes v) (vl_type_id v) (vl_alignment v) (VRef (vl_table v)).
(** The value after its bytes have been changed through [as_mut]. *)
Definition vl_with_bytes (v : value V) (bs : list mbyte) : value V :=
  Value (vl_store v) bs (vl_type_id v) (vl_alignment v) (vl_tblk v) (vl_table v).
(** src/value.rs:485-498, [From<&Value> for ValueRef]. *)
Definition vr_of_value (v : value V) : vref V :=
  ValRef (vl_bytes v) (vl_type_id v) (vl_alignment v) (VBox (vl_table v)).

(** src/value.rs:323-335, [Drop for Value].  The fields are [ManuallyDrop], so whatever a panic
    skips is leaked. *)
Definition vl_drop `{HasDrop V} (v : value V) (w : world) : outcome unit * world :=
  match call_drop G (drop_fn (vl_table v)) (vl_bytes v) w with
  | (Ret _, w1) =>
      match drop_as_aligned (vl_store v) (lenN (vl_bytes v)) (vl_alignment v) w1 with
      | (Ret _, w2) => table_free (vl_tblk v) w2
      | r => r
      end
  | r => r
  end.

(** src/value.rs:527-538, [ValueRef::clone_value] (and 692-703 for [ValueMut]): the given bytes,
    type, alignment and table. *)
Definition clone_value_of `{HasClone V} (bytes : list mbyte) (t : tyid) (al : N) (tab : V)
    (w : world) : outcome (value V) * world :=
  match call_clone G (clone_fn tab) bytes w with
  | (Ret b, w1) =>
      let '(tb, w2) := table_new w1 in
      (Ret (Value (Boxed (bb_blk b)) (bb_bytes b) t al tb tab), w2)
  | (o, w1) => (retype o, w1)
  end.
Definition vr_clone_value `{HasClone V} (r : vref V) (w : world) : outcome (value V) * world :=
  clone_value_of (vr_bytes r) (vr_type_id r) (vr_alignment r) (vt_as_ref (vr_vtable r)) w.
Definition vm_clone_value `{HasClone V} (m : vmut V) (w : world) : outcome (value V) * world :=
  clone_value_of (vm_bytes m) (vm_type_id m) (vm_alignment m) (vt_as_ref (vm_vtable m)) w.

(** src/value.rs:547-567, [ValueRef::clone_small_value] (and 712-732 for [ValueMut]): the clone is
    written into an uninitialised word. *)
Definition clone_small_of `{HasClone V} (bytes : list mbyte) (t : tyid) (al : N) (tab : V)
    (w : world) : outcome (value V) * world :=
  match call_clone_into_raw G (clone_into_raw_fn tab) bytes
          (repeat (Byte 0) (N.to_nat usize_bytes)) w with
  | (Ret bs, w1) =>
      let '(tb, w2) := table_new w1 in (Ret (Value Inline bs t al tb tab), w2)
  | (o, w1) => (retype o, w1)
  end.
Definition vr_clone_small_value `{HasClone V} (r : vref V) (w : world)
  : outcome (value V) * world :=
  clone_small_of (vr_bytes r) (vr_type_id r) (vr_alignment r) (vt_as_ref (vr_vtable r)) w.
Definition vm_clone_small_value `{HasClone V} (m : vmut V) (w : world)
  : outcome (value V) * world :=
  clone_small_of (vm_bytes m) (vm_type_id m) (vm_alignment m) (vt_as_ref (vm_vtable m)) w.

(** src/value.rs:309-321, [Clone] for boxed and small values. *)
Definition bv_clone `{HasClone V} (v : value V) : world -> outcome (value V) * world :=
  vr_clone_value (vl_as_ref v).
Definition sv_clone `{HasClone V} (v : value V) : world -> outcome (value V) * world :=
  vr_clone_small_value (vl_as_ref v).
Definition vl_clone `{HasClone V} (v : value V) : world -> outcome (value V) * world :=
  match vl_store v with Boxed _ => bv_clone v | Inline => sv_clone v end.

(** src/value.rs:337-349, [PartialEq for Value]. *)
Definition vl_eq `{HasPartialEq V} (a b : value V) : outcome bool :=
  if negb (vl_type_id a =? vl_type_id b) then Ret false
  else call_eq G (eq_fn (vl_table a)) (vl_bytes a) (vl_bytes b).
(** src/value.rs:353-360, [Hash]; 302-307, [Debug]. *)
Definition vl_hash `{HasHash V} (a : value V) : outcome (list N) :=
  call_hash G (hash_fn (vl_table a)) (vl_bytes a).
Definition vl_fmt `{HasDebug V} (a : value V) : outcome string :=
  call_fmt G (fmt_fn (vl_table a)) (vl_bytes a).

(** src/value.rs:412-449, [impl_value_ref_traits!] for [ValueRef] and [ValueMut]. *)
Definition vr_eq `{HasPartialEq V} (a b : vref V) : outcome bool :=
  if negb (vr_type_id a =? vr_type_id b) then Ret false
  else call_eq G (eq_fn (vt_as_ref (vr_vtable a))) (vr_bytes a) (vr_bytes b).
Definition vr_hash `{HasHash V} (a : vref V) : outcome (list N) :=
  call_hash G (hash_fn (vt_as_ref (vr_vtable a))) (vr_bytes a).
Definition vr_fmt `{HasDebug V} (a : vref V) : outcome string :=
  call_fmt G (fmt_fn (vt_as_ref (vr_vtable a))) (vr_bytes a).
Definition vm_eq `{HasPartialEq V} (a b : vmut V) : outcome bool :=
  if negb (vm_type_id a =? vm_type_id b) then Ret false
  else call_eq G (eq_fn (vt_as_ref (vm_vtable a))) (vm_bytes a) (vm_bytes b).
Definition vm_hash `{HasHash V} (a : vmut V) : outcome (list N) :=
  call_hash G (hash_fn (vt_as_ref (vm_vtable a))) (vm_bytes a).
Definition vm_fmt `{HasDebug V} (a : vmut V) : outcome string :=
  call_fmt G (fmt_fn (vt_as_ref (vm_vtable a))) (vm_bytes a).
(** The same macro for [CopyValueRef] and [CopyValueMut]. *)
Definition cr_eq `{HasPartialEq V} (a b : copy_ref V) : outcome bool :=
  if negb (cr_type_id a =? cr_type_id b) then Ret false
  else call_eq G (eq_fn (cr_vtable a)) (cr_bytes a) (cr_bytes b).
Definition cr_hash `{HasHash V} (a : copy_ref V) : outcome (list N) :=
  call_hash G (hash_fn (cr_vtable a)) (cr_bytes a).
Definition cr_fmt `{HasDebug V} (a : copy_ref V) : outcome string :=
  call_fmt G (fmt_fn (cr_vtable a)) (cr_bytes a).
Definition cm_eq `{HasPartialEq V} (a b : copy_mut V) : outcome bool :=
  if negb (cm_type_id a =? cm_type_id b) then Ret false
  else call_eq G (eq_fn (cm_vtable a)) (cm_bytes a) (cm_bytes b).

(** src/value.rs:366-387, [BoxValue::downcast].  Only the table is freed when the types differ. *)
Definition bv_downcast (t : tyid) (v : value V) (w : world) : outcome (option tbox) * world :=
  let b := match vl_store v with Boxed b => b | Inline => None end in
  let out := if vl_type_id v =? t
             then (let! bx := box_from_box_bytes G t (ByteBox b (vl_bytes v)) in Ret (Some bx))
             else Ret None in
  match out with
  | Ret o =>
      let '(f, w') := table_free (vl_tblk v) w in (let! _ := f in Ret o, w')
  | o => (o, w)
  end.

(** src/value.rs:389-410, [SmallValue::downcast]; src/bytes.rs:132-140, [try_from_usize]. *)
Definition sv_downcast (t : tyid) (v : value V) (w : world) : outcome (option payload) * world :=
  let out := if vl_type_id v =? t
             then (if t_size (G t) =? usize_bytes
                   then (let! x := read_val G t (vl_bytes v) in Ret (Some x))
                   else Ret None)
             else Ret None in
  match out with
  | Ret o =>
      let '(f, w') := table_free (vl_tblk v) w in (let! _ := f in Ret o, w')
  | o => (o, w)
  end.

(** src/value.rs:184-196 and 263-275, [into_raw_parts]. *)
Definition vl_into_raw_parts (v : value V) : (storage * list mbyte) * tyid * N * (option N * V) :=
  ((vl_store v, vl_bytes v), vl_type_id v, vl_alignment v, (vl_tblk v, vl_table v)).
(** src/value.rs:136-155 and 214-233, [from_raw_parts]. *)
Definition vl_from_raw_parts (bytes : storage * list mbyte) (t : tyid) (al : N) (tab : option N * V)
  : value V :=
  Value (fst bytes) (snd bytes) t al (fst tab) (snd tab).

(** src/value.rs:468-483, [ValueRef::new]; 628-642, [ValueMut::new]. *)
Definition vr_new `{VTable V} (t : tyid) (x : payload) : vref V :=
  ValRef (enc G t x) t (t_align (G t)) (VBox (build_vtable t)).
Definition vm_new `{VTable V} (t : tyid) (x : payload) : vmut V :=
  ValMut (enc G t x) t (t_align (G t)) (VBox (build_vtable t)).

(** src/value.rs:569-574, [ValueRef::downcast] (and src/copy_value.rs:36-45), then reading. *)
Definition vr_downcast (t : tyid) (r : vref V) : outcome (option payload) :=
  if vr_type_id r =? t then let! v := from_bytes G t (vr_bytes r) in Ret (Some v) else Ret None.
(** src/value.rs:755-759, [ValueMut::downcast], then reading. *)
Definition vm_downcast (t : tyid) (m : vmut V) : outcome (option payload) :=
  if vm_type_id m =? t then let! v := from_bytes G t (vm_bytes m) in Ret (Some v) else Ret None.

(** src/value.rs:604-612, [ValueRef::reborrow]; 789-797 and 799-807, [ValueMut::reborrow] and
    [reborrow_mut]; 814-824, [From<ValueMut> for ValueRef]. *)
Definition vr_reborrow (r : vref V) : vref V :=
  ValRef (vr_bytes r) (vr_type_id r) (vr_alignment r) (VRef (vt_as_ref (vr_vtable r))).
Definition vm_reborrow (m : vmut V) : vref V :=
  ValRef (vm_bytes m) (vm_type_id m) (vm_alignment m) (VRef (vt_as_ref (vm_vtable m))).
Definition vm_reborrow_mut (m : vmut V) : vmut V :=
  ValMut (vm_bytes m) (vm_type_id m) (vm_alignment m) (VRef (vt_as_ref (vm_vtable m))).
Definition vr_of_vm (m : vmut V) : vref V :=
  ValRef (vm_bytes m) (vm_type_id m) (vm_alignment m) (vm_vtable m).

Definition vm_with_bytes (m : vmut V) (bs : list mbyte) : vmut V :=
  ValMut bs (vm_type_id m) (vm_alignment m) (vm_vtable m).

(** src/value.rs:647-653, [ValueMut::swap]: both references afterwards. *)
Definition vm_swap (self other : vmut V) : outcome unit * vmut V * vmut V :=
  if vm_type_id self =? vm_type_id other then
    if lenN (vm_bytes self) =? lenN (vm_bytes other) then   (* std: swap_with_slice *)
      (Ret tt, vm_with_bytes self (vm_bytes other), vm_with_bytes other (vm_bytes self))
    else (Panic PIndex, self, other)
  else (Ret tt, self, other).

(** src/value.rs:655-660, [ValueMut::assign]: the value is dropped at the end of the call. *)
Definition vm_assign `{HasDrop V} (self : vmut V) (v : value V) (w : world)
  : outcome unit * vmut V * world :=
  let '(o, self', m) := vm_swap self (vl_as_mut v) in
  let v' := Value (vl_store v) (vm_bytes m) (vl_type_id v) (vl_alignment v) (vl_tblk v)
                  (vl_table v) in
  match o with
  | Ret _ => let '(o', w') := vl_drop v' w in (o', self', w')
  | Panic p => let '(o', w') := vl_drop v' w in (unwind p o', self', w')
  | _ => (o, self', w)
  end.

(** src/value.rs:662-686, [ValueMut::clone_from_other]. *)
Definition vm_clone_from_other `{HasClone V} (self : vmut V) (other : vref V) (w : world)
  : outcome (unit + mismatch) * vmut V * world :=
  if vm_type_id self =? vr_type_id other then
    let '(o, bs, w') :=
      call_clone_from G (clone_from_fn (vt_as_ref (vm_vtable self))) (vm_bytes self)
        (vr_bytes other) w in
    (let! _ := o in Ret (inl tt), vm_with_bytes self bs, w')
  else (Ret (inr (MismatchedTypes (vm_type_id self) (vr_type_id other))), self, w).

(** [*m.downcast::<T>()? = x]: the old value is dropped. *)
Definition vm_downcast_assign (t : tyid) (x : payload) (m : vmut V) (w : world)
  : outcome bool * vmut V * world :=
  if vm_type_id m =? t then
    match from_bytes G t (vm_bytes m) with
    | Ret old =>
        let '(o, w') := assign_val G t old w in
        (let! _ := o in Ret true, vm_with_bytes m (enc G t x), w')
    | o => (retype o, m, w)
    end
  else
    let '(o, w') := drop_val G t x w in (let! _ := o in Ret false, m, w').

End Values.

(** src/value.rs:157-179 and 235-258, [SmallValue::upcast], [BoxValue::upcast]: a new table box is
    made, then the old one freed. *)
Definition vl_upcast {V U} `{Sized V} `{Sized U} (from : V -> U) (v : value V) (w : world)
  : outcome (value U) * world :=
  let '(tb, w1) := table_new (V := U) w in
  let '(f, w2) := table_free (V := V) (vl_tblk v) w1 in
  (let! _ := f in
   Ret (Value (vl_store v) (vl_bytes v) (vl_type_id v) (vl_alignment v) tb (from (vl_table v))),
   w2).

(** src/value.rs:576-601, [ValueRef::upcast], [upcast_ref]; 762-787, [ValueMut::upcast],
    [upcast_mut]. *)
Definition vr_upcast {V U} (from : V -> U) (r : vref V) : vref U :=
  ValRef (vr_bytes r) (vr_type_id r) (vr_alignment r) (VBox (from (vt_take (vr_vtable r)))).
Definition vm_upcast {V U} (from : V -> U) (m : vmut V) : vmut U :=
  ValMut (vm_bytes m) (vm_type_id m) (vm_alignment m) (VBox (from (vt_take (vm_vtable m)))).

(** src/value.rs:829-853, copy values as values with the no-op [drop_copy]. *)
Definition vm_of_cm {V} (m : copy_mut V) : vmut (drop_ptr * V) :=
  ValMut (cm_bytes m) (cm_type_id m) (cm_alignment m) (VBox (DropCopy, cm_vtable m)).
Definition vr_of_cr {V} (r : copy_ref V) : vref (drop_ptr * V) :=
  ValRef (cr_bytes r) (cr_type_id r) (cr_alignment r) (VBox (DropCopy, cr_vtable r)).
