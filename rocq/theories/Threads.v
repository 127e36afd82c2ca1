(** * Threads: which containers and views may be sent to or shared with other threads.

    The compiler decides [Send] and [Sync]: by an explicit [unsafe impl] where there is one, and
    otherwise by the fields (auto traits; the rules for pointers, references, boxes and structs are
    part of the trusted base). *)

From Verif Require Import Base Derive DeriveSem.
Local Open Scope string_scope.
Local Open Scope list_scope.

Inductive marker : Type := MSend | MSync.

(** A type of virtual tables: whether the type itself is [Send] and [Sync], and whether it
    implements [HasSend] and [HasSync] (src/traits.rs:142-150). *)
Record table_type : Type := TableType
  { v_send : bool; v_sync : bool; v_has_send : bool; v_has_sync : bool }.

Definition table_is (V : table_type) (m : marker) : bool :=
  match m with MSend => v_send V | MSync => v_sync V end.
Definition table_has (V : table_type) (m : marker) : bool :=
  match m with MSend => v_has_send V | MSync => v_has_sync V end.

(** The containers and views. *)
Inductive handle : Type :=
| HVecVoid | HVecCopy | HVecDyn | HBoxValue | HSmallValue
| HSliceCopy | HSliceCopyMut | HSlice | HSliceMut
| HCopyValueRef | HCopyValueMut | HValueRef | HValueMut.

(** The types of fields. *)
Inductive part : Type :=
| PRaw                 (* *mut () *)
| PPlain               (* usize, TypeId, ElemInfo *)
| PBytes               (* Box<[MaybeUninit<u8>]>, MaybeUninit<usize> *)
| PBytesRef            (* &'a [MaybeUninit<u8>] *)
| PBytesMut            (* &'a mut [MaybeUninit<u8>] *)
| PTableBox            (* Box<V> *)
| PTableRef            (* VTableRef<'a, V> *)
| PHandle (h : handle).

Definition fields (h : handle) : list part :=
  match h with
  | HVecVoid => [PRaw; PPlain; PPlain; PPlain]                  (* src/vec_void.rs:15-24 *)
  | HVecCopy => [PHandle HVecVoid; PTableBox]                   (* src/vec_copy.rs:53-63 *)
  | HVecDyn => [PHandle HVecCopy]                               (* src/vec_dyn.rs:75-80 *)
  | HBoxValue => [PBytes; PPlain; PPlain; PTableBox]            (* src/value.rs:97-109 *) 
  | HSmallValue => [PBytes; PPlain; PPlain; PTableBox]          (* src/value.rs:97-109 *) 
  | HSliceCopy => [PBytesRef; PPlain; PTableRef]                (* src/slice_copy.rs:18-27 *)
  | HSliceCopyMut => [PBytesMut; PPlain; PTableRef]             (* src/slice_copy.rs:382-390 *)
  | HSlice => [PHandle HSliceCopy]                              (* src/slice.rs:21-27 *)
  | HSliceMut => [PHandle HSliceCopyMut]                        (* src/slice.rs:337-342 *)
  | HCopyValueRef => [PBytesRef; PPlain; PPlain; PTableRef]     (* src/copy_value.rs:129-139 *)
  | HCopyValueMut => [PBytesMut; PPlain; PPlain; PTableRef]     (* src/copy_value.rs:215-224 *)
  | HValueRef => [PBytesRef; PPlain; PPlain; PTableRef]         (* src/value.rs:455-464 *)
  | HValueMut => [PBytesMut; PPlain; PPlain; PTableRef]         (* src/value.rs:617-626 *)
  end.

(** The explicit implementations: [Send] if [V: HasSend], [Sync] if [V: HasSync]. *)
Definition declared (h : handle) : bool :=
  match h with
  | HVecDyn => true                                             (* src/vec_dyn.rs:146-147 *)
  | HBoxValue | HSmallValue => true                             (* src/value.rs:299-300 *)
  | HSlice => true                                              (* src/slice.rs:330-331 *)
  | HSliceMut => true                                           (* src/slice.rs:745-746 *)
  | HCopyValueRef | HCopyValueMut | HValueRef | HValueMut => true
      (* src/value.rs:412-415, used at 451-452, 466 and 626 *)
  | HVecVoid | HVecCopy | HSliceCopy | HSliceCopyMut => false
  end.

(** Auto traits of the parts that are not containers: raw pointers have none; bytes, numbers and
    references to bytes have both; [VTableRef] (src/vtable.rs:36-44) is a reference or a box. *)
Definition plain_part_is (V : table_type) (m : marker) (p : part) : bool :=
  match p with
  | PRaw => false
  | PPlain | PBytes | PBytesRef | PBytesMut => true
  | PTableBox => table_is V m
  | PTableRef =>
      (* &V is Send or Sync if V is Sync; Box<V> is whatever V is *)
      v_sync V && table_is V m
  | PHandle _ => true
  end.

(** Whether a container or view is [Send] or [Sync].  The nesting is three deep at most; the
    parameter [depth] bounds it. *)
Fixpoint handle_is_at (depth : nat) (V : table_type) (m : marker) (h : handle) : bool :=
  if declared h then table_has V m
  else
    match depth with
    | O => false
    | S depth =>
        forallb (fun p => match p with
                          | PHandle h' => handle_is_at depth V m h'
                          | _ => plain_part_is V m p
                          end) (fields h)
    end.
Definition handle_is (V : table_type) (m : marker) (h : handle) : bool := handle_is_at 3 V m h.

(** The type of tables called [q] in a program: tables are structs of function pointers, so they
    are [Send] and [Sync] themselves. *)
Definition table_named (its : list gen_item) (lib : string) (q : qname) : table_type :=
  TableType true true
    (implements its (lib_q lib "HasSend") q) (implements its (lib_q lib "HasSync") q).
(** The table [()] of [VecCopy], [SliceCopy] ... without functions (the default parameter). *)
Definition unit_table : table_type := TableType true true false false.
