(** * Borrow: which views the published signatures allow a program to keep, and what happens to them.

    Two independent parts.
    - Statically: the signatures of all safe functions that make a view, and the borrow rules of
      the language applied to straight-line programs over them (rules of rustc, part of the
      trusted base; written for straight-line programs, with liveness as in non-lexical lifetimes).
    - Dynamically: what running such a program does to the memory of the owners and to the virtual
      tables the views refer to.

    Simplifications: a program is a sequence of statements on distinct variables; an iterator, an
    option or a pair of views is one variable; an owner is a [Vec], a [VecCopy], a [VecDyn], a
    [Value] or a local variable together with its virtual table; handing an owner over by value is
    [Drop]; functions returning a reference to the container itself ([check_ref], [push_as] ...)
    are not listed, nor are unsafe functions. *)

From Coq Require Import String List Arith Bool.
Import ListNotations.
Local Open Scope string_scope.
Local Open Scope list_scope.

(** What a variable is: an owner of elements, a view for reading, a view for writing. *)
Inductive kind : Type := Owner | Shared | Exclusive.
(** How a function takes its argument: [&x], [&mut x] or [x]. *)
Inductive passing : Type := ByRef | ByMut | ByValue.
(** What the lifetime of the result is tied to: the borrow made for this call (elided lifetimes),
    the lifetime of the argument's data (lifetime ['a] of the view passed by value), or nothing
    at all (a lifetime the caller may choose freely). *)
Inductive tie : Type := ToCall | ToData | ToNothing.
(** Where the virtual table of the result is: in the argument (a [VTableRef::Ref] to it), wherever
    the argument had it (its [VTableRef] moved or cloned), or in the result itself
    ([VTableRef::Box], or no table at all). *)
Inductive table : Type := TheSource | WhatSourceHad | Itself.

Record fn : Type := Fn
  { f_name : string; f_from : kind; f_passing : passing; f_gives : kind; f_tie : tie; f_table : table }.

(** The safe view-making functions of the crate; the lines are given with each. *)
Definition dync_api : list fn :=
  [
     (* src/slice_copy.rs:32-53 `(slice: &[T]) -> Self` *)
     Fn "SliceCopy::from_slice" Owner ByRef Shared ToNothing Itself;
     (* src/slice_copy.rs:69-72 *)
     Fn "SliceCopy::into_raw_parts" Shared ByValue Shared ToData WhatSourceHad;
     (* src/slice_copy.rs:100-118 *)
     Fn "SliceCopy::upcast" Shared ByValue Shared ToData Itself;
     (* src/slice_copy.rs:124-130 *)
     Fn "SliceCopy::check" Shared ByRef Shared ToCall TheSource;
     (* src/slice_copy.rs:136-142 *)
     Fn "SliceCopy::reborrow" Shared ByRef Shared ToCall TheSource;
     (* src/slice_copy.rs:186-188 *)
     Fn "SliceCopy::iter_as" Shared ByRef Shared ToCall Itself;
     (* src/slice_copy.rs:218-222 *)
     Fn "SliceCopy::as_slice" Shared ByRef Shared ToCall Itself;
     (* src/slice_copy.rs:225-233 *)
     Fn "SliceCopy::get_as" Shared ByRef Shared ToCall Itself;
     (* src/slice_copy.rs:251-260 *)
     Fn "SliceCopy::iter" Shared ByRef Shared ToCall TheSource;
     (* src/slice_copy.rs:264-273 *)
     Fn "SliceCopy::into_iter" Shared ByValue Shared ToData WhatSourceHad;
     (* src/slice_copy.rs:276-284 *)
     Fn "SliceCopy::chunks_exact" Shared ByRef Shared ToCall TheSource;
     (* src/slice_copy.rs:286-299 *)
     Fn "SliceCopy::split_at" Shared ByRef Shared ToCall TheSource;
     (* src/slice_copy.rs:303-315 *)
     Fn "SliceCopy::get" Shared ByRef Shared ToCall TheSource;
     (* src/slice_copy.rs:319-328 *)
     Fn "SliceCopy::subslice" Shared ByRef Shared ToCall TheSource;
     (* src/slice_copy.rs:332-342 *)
     Fn "SliceCopy::into_subslice" Shared ByValue Shared ToData WhatSourceHad;
     (* src/slice_copy.rs:18 derive *)
     Fn "SliceCopy::clone" Shared ByRef Shared ToData WhatSourceHad;
     (* src/slice_copy.rs:367-376 *)
     Fn "SliceCopy::from(&[T])" Owner ByRef Shared ToCall Itself;
     (* src/slice_copy.rs:395-417 *)
     Fn "SliceCopyMut::from_slice" Owner ByMut Exclusive ToCall Itself;
     (* src/slice_copy.rs:427-430 *)
     Fn "SliceCopyMut::into_raw_parts" Exclusive ByValue Exclusive ToData WhatSourceHad;
     (* src/slice_copy.rs:464-482 *)
     Fn "SliceCopyMut::upcast" Exclusive ByValue Exclusive ToData Itself;
     (* src/slice_copy.rs:490-494 *)
     Fn "SliceCopyMut::copy_from_slice" Exclusive ByMut Exclusive ToCall TheSource;
     (* src/slice_copy.rs:499-505 *)
     Fn "SliceCopyMut::check" Exclusive ByMut Exclusive ToCall TheSource;
     (* src/slice_copy.rs:511-517 *)
     Fn "SliceCopyMut::reborrow" Exclusive ByRef Shared ToCall TheSource;
     (* src/slice_copy.rs:523-529 *)
     Fn "SliceCopyMut::reborrow_mut" Exclusive ByMut Exclusive ToCall TheSource;
     (* src/slice_copy.rs:567-569 *)
     Fn "SliceCopyMut::iter_as" Exclusive ByMut Exclusive ToCall Itself;
     (* src/slice_copy.rs:598-603 *)
     Fn "SliceCopyMut::as_slice" Exclusive ByMut Exclusive ToCall Itself;
     (* src/slice_copy.rs:606-614 *)
     Fn "SliceCopyMut::get_as" Exclusive ByMut Exclusive ToCall Itself;
     (* src/slice_copy.rs:658-668 *)
     Fn "SliceCopyMut::iter" Exclusive ByMut Exclusive ToCall TheSource;
     (* src/slice_copy.rs:672-681 *)
     Fn "SliceCopyMut::into_iter" Exclusive ByValue Exclusive ToData WhatSourceHad;
     (* src/slice_copy.rs:684-692 *)
     Fn "SliceCopyMut::chunks_exact" Exclusive ByRef Shared ToCall TheSource;
     (* src/slice_copy.rs:695-703 *)
     Fn "SliceCopyMut::chunks_exact_mut" Exclusive ByMut Exclusive ToCall TheSource;
     (* src/slice_copy.rs:705-718 *)
     Fn "SliceCopyMut::split_at" Exclusive ByMut Exclusive ToCall TheSource;
     (* src/slice_copy.rs:722-734 *)
     Fn "SliceCopyMut::get" Exclusive ByRef Shared ToCall TheSource;
     (* src/slice_copy.rs:738-753 *)
     Fn "SliceCopyMut::get_mut" Exclusive ByMut Exclusive ToCall TheSource;
     (* src/slice_copy.rs:757-766 *)
     Fn "SliceCopyMut::subslice" Exclusive ByRef Shared ToCall TheSource;
     (* src/slice_copy.rs:770-780 *)
     Fn "SliceCopyMut::subslice_mut" Exclusive ByMut Exclusive ToCall TheSource;
     (* src/slice_copy.rs:784-794 *)
     Fn "SliceCopyMut::into_subslice" Exclusive ByValue Exclusive ToData WhatSourceHad;
     (* src/slice_copy.rs:816-825 *)
     Fn "SliceCopyMut::from(&mut [T])" Owner ByMut Exclusive ToCall Itself;
     (* src/slice_copy.rs:827-836 *)
     Fn "SliceCopy::from(SliceCopyMut)" Exclusive ByValue Shared ToData WhatSourceHad;
     (* src/slice_copy.rs:838-843 *)
     Fn "SliceCopy::from(&SliceCopyMut)" Exclusive ByRef Shared ToCall TheSource;
     (* src/slice.rs:48-55 `(slice: &[T]) -> Self` *)
     Fn "Slice::from_slice" Owner ByRef Shared ToNothing Itself;
     (* src/slice.rs:64-67 *)
     Fn "Slice::into_raw_parts" Shared ByValue Shared ToData WhatSourceHad;
     (* src/slice.rs:93-100 *)
     Fn "Slice::upcast" Shared ByValue Shared ToData Itself;
     (* src/slice.rs:106-112 *)
     Fn "Slice::check" Shared ByRef Shared ToCall TheSource;
     (* src/slice.rs:118-122 *)
     Fn "Slice::reborrow" Shared ByRef Shared ToCall TheSource;
     (* src/slice.rs:165-167 *)
     Fn "Slice::iter_as" Shared ByRef Shared ToCall Itself;
     (* src/slice.rs:173-175 *)
     Fn "Slice::as_slice" Shared ByRef Shared ToCall Itself;
     (* src/slice.rs:180-188 *)
     Fn "Slice::get_as" Shared ByRef Shared ToCall Itself;
     (* src/slice.rs:206-215 *)
     Fn "Slice::iter" Shared ByRef Shared ToCall TheSource;
     (* src/slice.rs:219-228 *)
     Fn "Slice::into_iter" Shared ByValue Shared ToData WhatSourceHad;
     (* src/slice.rs:231-235 *)
     Fn "Slice::chunks_exact" Shared ByRef Shared ToCall TheSource;
     (* src/slice.rs:238-241 *)
     Fn "Slice::split_at" Shared ByRef Shared ToCall TheSource;
     (* src/slice.rs:245-257 *)
     Fn "Slice::get" Shared ByRef Shared ToCall TheSource;
     (* src/slice.rs:261-268 *)
     Fn "Slice::subslice" Shared ByRef Shared ToCall TheSource;
     (* src/slice.rs:272-279 *)
     Fn "Slice::into_subslice" Shared ByValue Shared ToData WhatSourceHad;
     (* src/slice.rs:21 derive *)
     Fn "Slice::clone" Shared ByRef Shared ToData WhatSourceHad;
     (* src/slice.rs:319-328 *)
     Fn "Slice::from(&[T])" Owner ByRef Shared ToCall Itself;
     (* src/slice.rs:364-371 *)
     Fn "SliceMut::from_slice" Owner ByMut Exclusive ToCall Itself;
     (* src/slice.rs:380-383 *)
     Fn "SliceMut::into_raw_parts" Exclusive ByValue Shared ToData WhatSourceHad;
     (* src/slice.rs:409-416 *)
     Fn "SliceMut::upcast" Exclusive ByValue Exclusive ToData Itself;
     (* src/slice.rs:421-427 *)
     Fn "SliceMut::check" Exclusive ByMut Exclusive ToCall TheSource;
     (* src/slice.rs:433-437 *)
     Fn "SliceMut::reborrow" Exclusive ByRef Shared ToCall TheSource;
     (* src/slice.rs:443-447 *)
     Fn "SliceMut::reborrow_mut" Exclusive ByMut Exclusive ToCall TheSource;
     (* src/slice.rs:497-499 *)
     Fn "SliceMut::iter_as" Exclusive ByMut Exclusive ToCall Itself;
     (* src/slice.rs:504-508 *)
     Fn "SliceMut::as_slice" Exclusive ByMut Exclusive ToCall Itself;
     (* src/slice.rs:512-520 *)
     Fn "SliceMut::get_as" Exclusive ByMut Exclusive ToCall Itself;
     (* src/slice.rs:564-577 *)
     Fn "SliceMut::iter" Exclusive ByMut Exclusive ToCall TheSource;
     (* src/slice.rs:581-590 *)
     Fn "SliceMut::into_iter" Exclusive ByValue Exclusive ToData WhatSourceHad;
     (* src/slice.rs:593-597 *)
     Fn "SliceMut::chunks_exact" Exclusive ByRef Shared ToCall TheSource;
     (* src/slice.rs:600-604 *)
     Fn "SliceMut::chunks_exact_mut" Exclusive ByMut Exclusive ToCall TheSource;
     (* src/slice.rs:607-610 *)
     Fn "SliceMut::split_at" Exclusive ByMut Exclusive ToCall TheSource;
     (* src/slice.rs:614-626 *)
     Fn "SliceMut::get" Exclusive ByRef Shared ToCall TheSource;
     (* src/slice.rs:630-644 *)
     Fn "SliceMut::get_mut" Exclusive ByMut Exclusive ToCall TheSource;
     (* src/slice.rs:648-655 *)
     Fn "SliceMut::subslice" Exclusive ByRef Shared ToCall TheSource;
     (* src/slice.rs:659-666 *)
     Fn "SliceMut::subslice_mut" Exclusive ByMut Exclusive ToCall TheSource;
     (* src/slice.rs:670-677 *)
     Fn "SliceMut::into_subslice" Exclusive ByValue Exclusive ToData WhatSourceHad;
     (* src/slice.rs:687-692 *)
     Fn "SliceMut::clone_from_slice" Exclusive ByMut Exclusive ToCall TheSource;
     (* src/slice.rs:718-727 *)
     Fn "SliceMut::from(&mut [T])" Owner ByMut Exclusive ToCall Itself;
     (* src/slice.rs:729-736 *)
     Fn "Slice::from(SliceMut)" Exclusive ByValue Shared ToData WhatSourceHad;
     (* src/slice.rs:738-743 *)
     Fn "Slice::from(&SliceMut)" Exclusive ByRef Shared ToCall TheSource;
     (* src/vec_copy.rs:408-410 *)
     Fn "VecCopy::iter_as" Owner ByRef Shared ToCall Itself;
     (* src/vec_copy.rs:415-417 *)
     Fn "VecCopy::iter_mut_as" Owner ByMut Exclusive ToCall Itself;
     (* src/vec_copy.rs:463-474 *)
     Fn "VecCopy::as_slice_as" Owner ByRef Shared ToCall Itself;
     (* src/vec_copy.rs:483-497 *)
     Fn "VecCopy::as_mut_slice_as" Owner ByMut Exclusive ToCall Itself;
     (* src/vec_copy.rs:500-505 *)
     Fn "VecCopy::get_ref_as" Owner ByRef Shared ToCall Itself;
     (* src/vec_copy.rs:509-515 *)
     Fn "VecCopy::get_mut_as" Owner ByMut Exclusive ToCall Itself;
     (* src/vec_copy.rs:569-585 *)
     Fn "VecCopy::get_ref" Owner ByRef Shared ToCall TheSource;
     (* src/vec_copy.rs:589-603 *)
     Fn "VecCopy::get_mut" Owner ByMut Exclusive ToCall TheSource;
     (* src/vec_copy.rs:621-630 *)
     Fn "VecCopy::iter" Owner ByRef Shared ToCall TheSource;
     (* src/vec_copy.rs:649-672 *)
     Fn "VecCopy::iter_mut" Owner ByMut Exclusive ToCall TheSource;
     (* src/vec_copy.rs:688-700 *)
     Fn "VecCopy::as_slice" Owner ByRef Shared ToCall TheSource;
     (* src/vec_copy.rs:704-718 *)
     Fn "VecCopy::as_mut_slice" Owner ByMut Exclusive ToCall TheSource;
     (* src/vec_dyn.rs:235-237 *)
     Fn "VecDyn::vtable" Owner ByRef Shared ToCall TheSource;
     (* src/vec_dyn.rs:335-337 *)
     Fn "VecDyn::iter_as" Owner ByRef Shared ToCall Itself;
     (* src/vec_dyn.rs:343-345 *)
     Fn "VecDyn::iter_mut_as" Owner ByMut Exclusive ToCall Itself;
     (* src/vec_dyn.rs:366-368 *)
     Fn "VecDyn::as_slice_as" Owner ByRef Shared ToCall Itself;
     (* src/vec_dyn.rs:373-375 *)
     Fn "VecDyn::as_mut_slice_as" Owner ByMut Exclusive ToCall Itself;
     (* src/vec_dyn.rs:379-381 *)
     Fn "VecDyn::get_ref_as" Owner ByRef Shared ToCall Itself;
     (* src/vec_dyn.rs:385-387 *)
     Fn "VecDyn::get_mut_as" Owner ByMut Exclusive ToCall Itself;
     (* src/vec_dyn.rs:475-486 *)
     Fn "VecDyn::get" Owner ByRef Shared ToCall TheSource;
     (* src/vec_dyn.rs:495-505 *)
     Fn "VecDyn::iter" Owner ByRef Shared ToCall TheSource;
     (* src/vec_dyn.rs:509-525 *)
     Fn "VecDyn::get_mut" Owner ByMut Exclusive ToCall TheSource;
     (* src/vec_dyn.rs:538-549 *)
     Fn "VecDyn::iter_mut" Owner ByMut Exclusive ToCall TheSource;
     (* src/vec_dyn.rs:553-557 *)
     Fn "VecDyn::as_slice" Owner ByRef Shared ToCall TheSource;
     (* src/vec_dyn.rs:561-565 *)
     Fn "VecDyn::as_mut_slice" Owner ByMut Exclusive ToCall TheSource;
     (* src/vec_dyn.rs:770-779 *)
     Fn "Meta::from(&VecDyn)" Owner ByRef Shared ToCall TheSource;
     (* src/copy_value.rs:144-154 *)
     Fn "CopyValueRef::new" Owner ByRef Shared ToCall Itself;
     (* src/copy_value.rs:182-185 *)
     Fn "CopyValueRef::downcast" Shared ByValue Shared ToData Itself;
     (* src/copy_value.rs:188-198 *)
     Fn "CopyValueRef::upcast" Shared ByValue Shared ToData Itself;
     (* src/copy_value.rs:201-212 *)
     Fn "CopyValueRef::upcast_ref" Shared ByRef Shared ToCall Itself;
     (* src/copy_value.rs:130 derive *)
     Fn "CopyValueRef::clone" Shared ByRef Shared ToData WhatSourceHad;
     (* src/copy_value.rs:229-239 *)
     Fn "CopyValueMut::new" Owner ByMut Exclusive ToCall Itself;
     (* src/copy_value.rs:269-276 *)
     Fn "CopyValueMut::copy" Exclusive ByValue Exclusive ToData WhatSourceHad;
     (* src/copy_value.rs:289-292 *)
     Fn "CopyValueMut::downcast" Exclusive ByValue Exclusive ToData Itself;
     (* src/copy_value.rs:295-306 *)
     Fn "CopyValueMut::upcast" Exclusive ByMut Exclusive ToCall Itself;
     (* src/copy_value.rs:309-319 *)
     Fn "CopyValueRef::from(CopyValueMut)" Exclusive ByValue Shared ToData WhatSourceHad;
     (* src/value.rs:280-287 *)
     Fn "Value::as_ref" Owner ByRef Shared ToCall TheSource;
     (* src/value.rs:289-296 *)
     Fn "Value::as_mut" Owner ByMut Exclusive ToCall TheSource;
     (* src/value.rs:471-481 *)
     Fn "ValueRef::new" Owner ByRef Shared ToCall Itself;
     (* src/value.rs:484-498 *)
     Fn "ValueRef::from(&Value)" Owner ByRef Shared ToCall Itself;
     (* src/value.rs:571-574 *)
     Fn "ValueRef::downcast" Shared ByValue Shared ToData Itself;
     (* src/value.rs:577-587 *)
     Fn "ValueRef::upcast" Shared ByValue Shared ToData Itself;
     (* src/value.rs:590-601 *)
     Fn "ValueRef::upcast_ref" Shared ByRef Shared ToCall Itself;
     (* src/value.rs:605-612 *)
     Fn "ValueRef::reborrow" Shared ByRef Shared ToCall TheSource;
     (* src/value.rs:455 derive *)
     Fn "ValueRef::clone" Shared ByRef Shared ToData WhatSourceHad;
     (* src/value.rs:631-641 *)
     Fn "ValueMut::new" Owner ByMut Exclusive ToCall Itself;
     (* src/value.rs:756-759 *)
     Fn "ValueMut::downcast" Exclusive ByValue Exclusive ToData Itself;
     (* src/value.rs:763-773 *)
     Fn "ValueMut::upcast" Exclusive ByValue Exclusive ToData Itself;
     (* src/value.rs:777-787 *)
     Fn "ValueMut::upcast_mut" Exclusive ByMut Exclusive ToCall Itself;
     (* src/value.rs:790-797 *)
     Fn "ValueMut::reborrow" Exclusive ByRef Shared ToCall TheSource;
     (* src/value.rs:800-807 *)
     Fn "ValueMut::reborrow_mut" Exclusive ByMut Exclusive ToCall TheSource;
     (* src/value.rs:814-824 *)
     Fn "ValueRef::from(ValueMut)" Exclusive ByValue Shared ToData WhatSourceHad;
     (* src/value.rs:831-841 *)
     Fn "ValueMut::from(CopyValueMut)" Exclusive ByValue Exclusive ToData Itself;
     (* src/value.rs:843-853 *)
     Fn "ValueRef::from(CopyValueRef)" Shared ByValue Shared ToData Itself;
     (* src/meta.rs:24-36 *)
     Fn "Meta::from(ValueRef)" Shared ByValue Shared ToData WhatSourceHad;
     (* src/meta.rs:39-51 *)
     Fn "Meta::from(ValueMut)" Exclusive ByValue Shared ToData WhatSourceHad;
     (* src/meta.rs:53-65 *)
     Fn "Meta::from(CopyValueRef)" Shared ByValue Shared ToData WhatSourceHad;
     (* src/meta.rs:67-75 *)
     Fn "Meta::from(SliceCopy)" Shared ByValue Shared ToData WhatSourceHad;
     (* src/meta.rs:77-85 *)
     Fn "Meta::from(SliceCopyMut)" Exclusive ByValue Shared ToData WhatSourceHad;
     (* src/meta.rs:87-92 *)
     Fn "Meta::from(Slice)" Shared ByValue Shared ToData WhatSourceHad;
     (* src/meta.rs:95-100 *)
     Fn "Meta::from(SliceMut)" Exclusive ByValue Shared ToData WhatSourceHad;
     (* src/meta.rs:103-112 *)
     Fn "Meta::from(&VecCopy)" Owner ByRef Shared ToCall TheSource
  ].

Local Close Scope string_scope.

(** ** Programs *)

(** [New]: let x be a new owner; [Call f x]: let v be the view [f x]; [Grow x]: change the owner in a
    way that may move its elements ([push] and the like); [Read v], [Write v]: go through a view;
    [Drop x]: drop a variable or hand it over.  [New] and [Call] define the next variable. *)
Inductive stmt : Type :=
| New
| Call (f : fn) (x : nat)
| Grow (x : nat)
| Read (v : nat)
| Write (v : nat)
| Drop (x : nat).

(** The variable a statement works on. *)
Definition touched (s : stmt) : option nat :=
  match s with New => None | Call _ x | Grow x | Read x | Write x | Drop x => Some x end.
Definition touches (s : stmt) (x : nat) : Prop := touched s = Some x.

(** ** The borrow rules *)

(** What the compiler knows of a variable: its kind, whether it may no longer be used, and its
    loans: the variables it borrows from, each with whether exclusively. *)
Record svar : Type := SVar { s_kind : kind; s_gone : bool; s_loans : list (nat * bool) }.

Definition used_later (rest : list stmt) (v : nat) : bool :=
  existsb (fun s => match touched s with Some x => x =? v | None => false end) rest.

(** Reading access to [x] is refused while a view that is used later borrows [x] exclusively; any
    other access while one borrows [x] at all (error E0502, E0505, E0506). *)
Definition conflicts (x : nat) (exclusive : bool) (loan : nat * bool) : bool :=
  (fst loan =? x) && (exclusive || snd loan).
Fixpoint free_from (n : nat) (g : list svar) (rest : list stmt) (x : nat) (exclusive : bool) : bool :=
  match g with
  | [] => true
  | a :: g =>
      negb (used_later rest n && existsb (conflicts x exclusive) (s_loans a))
      && free_from (S n) g rest x exclusive
  end.
Definition may_access (g : list svar) (rest : list stmt) (x : nat) (exclusive : bool) : bool :=
  match nth_error g x with
  | Some a => negb (s_gone a) && free_from 0 g rest x exclusive
  | None => false
  end.

Definition kind_eqb (a b : kind) : bool :=
  match a, b with Owner, Owner | Shared, Shared | Exclusive, Exclusive => true | _, _ => false end.
Definition has_kind (g : list svar) (x : nat) (k : kind) : bool :=
  match nth_error g x with Some a => kind_eqb (s_kind a) k | None => false end.

(** [&x] is a reading access; [&mut x] and moving [x] are exclusive. *)
Definition wants (p : passing) : bool := match p with ByRef => false | _ => true end.

Definition stmt_ok (g : list svar) (s : stmt) (rest : list stmt) : bool :=
  match s with
  | New => true
  | Call f x => has_kind g x (f_from f) && may_access g rest x (wants (f_passing f))
  | Grow x => has_kind g x Owner && may_access g rest x true
  | Read v => (has_kind g v Shared || has_kind g v Exclusive) && may_access g rest v false
  | Write v => has_kind g v Exclusive && may_access g rest v true
  | Drop x => may_access g rest x true
  end.

Fixpoint set_nth {A} (n : nat) (a : A) (l : list A) : list A :=
  match l, n with
  | [], _ => []
  | _ :: l, O => a :: l
  | b :: l, S n => b :: set_nth n a l
  end.
Definition s_end (x : nat) (g : list svar) : list svar :=
  match nth_error g x with
  | Some a => set_nth x (SVar (s_kind a) true (s_loans a)) g
  | None => g
  end.

(** The loans of a result: a borrow made for the call keeps [x] borrowed and all [x] borrows from;
    a result tied to the data keeps what [x] borrows from; a free result keeps nothing. *)
Definition loans_for (g : list svar) (f : fn) (x : nat) : list (nat * bool) :=
  match nth_error g x with
  | None => []
  | Some a =>
      match f_tie f with
      | ToCall => (x, wants (f_passing f)) :: s_loans a
      | ToData => s_loans a
      | ToNothing => []
      end
  end.

Definition s_step (g : list svar) (s : stmt) : list svar :=
  match s with
  | New => g ++ [SVar Owner false []]
  | Call f x =>
      let l := loans_for g f x in
      (match f_passing f with ByValue => s_end x g | _ => g end) ++ [SVar (f_gives f) false l]
  | Drop x => s_end x g
  | _ => g
  end.

Fixpoint accepted_from (g : list svar) (p : list stmt) : bool :=
  match p with
  | [] => true
  | s :: p => stmt_ok g s p && accepted_from (s_step g s) p
  end.
(** The compiler accepts the program. *)
Definition accepted (p : list stmt) : bool := accepted_from [] p.

(** ** Running a program *)

(** An owner counts how often its elements were moved to new memory and how often they were
    written.  A view points to the memory of an owner as it was at that count, remembers how many
    writes there had been when it was made, and refers to a virtual table inside another variable
    ([Some h]) or holds it itself ([None]). *)
Inductive cell : Type :=
| COwner (moves writes : nat)
| CView (excl : bool) (owner moves writes : nat) (tab : option nat).
Record dvar : Type := DVar { d_gone : bool; d_cell : cell }.

Definition d_end (x : nat) (st : list dvar) : list dvar :=
  match nth_error st x with
  | Some a => set_nth x (DVar true (d_cell a)) st
  | None => st
  end.
Definition d_write (moved : nat) (o : nat) (st : list dvar) : list dvar :=
  match nth_error st o with
  | Some (DVar g (COwner m w)) => set_nth o (DVar g (COwner (m + moved) (S w))) st
  | _ => st
  end.

(** The owner behind a variable, and the counts it has now. *)
Definition owner_of (st : list dvar) (x : nat) : nat :=
  match nth_error st x with
  | Some (DVar _ (CView _ o _ _ _)) => o
  | _ => x
  end.
Definition counts (st : list dvar) (o : nat) : nat * nat :=
  match nth_error st o with
  | Some (DVar _ (COwner m w)) => (m, w)
  | _ => (0, 0)
  end.
Definition tab_of (st : list dvar) (x : nat) : option nat :=
  match nth_error st x with
  | Some (DVar _ (CView _ _ _ _ t)) => t
  | _ => None
  end.
Definition moves_seen (st : list dvar) (x : nat) : nat :=
  match nth_error st x with
  | Some (DVar _ (CView _ _ m _ _)) => m
  | _ => fst (counts st x)
  end.

Definition is_excl (k : kind) : bool := match k with Exclusive => true | _ => false end.
(** A view made from a view points where that one points: the pointer is copied, whatever became of
    the memory. *)
Definition d_view (st : list dvar) (f : fn) (x : nat) : cell :=
  let o := owner_of st x in
  CView (is_excl (f_gives f)) o (moves_seen st x) (snd (counts st o))
    (match f_table f with
     | TheSource => match tab_of st x with None => Some x | Some h => Some h end
     | WhatSourceHad => tab_of st x
     | Itself => None
     end).

Definition d_step (st : list dvar) (s : stmt) : list dvar :=
  match s with
  | New => st ++ [DVar false (COwner 0 0)]
  | Call f x =>
      let c := d_view st f x in
      (match f_passing f with ByValue => d_end x st | _ => st end) ++ [DVar false c]
  | Grow x => d_write 1 x st
  | Read _ => st
  | Write v => d_write 0 (owner_of st v) st
  | Drop x => d_end x st
  end.

Fixpoint d_run (st : list dvar) (p : list stmt) : list dvar :=
  match p with [] => st | s :: p => d_run (d_step st s) p end.
(** The memory after running [p]. *)
Definition after (p : list stmt) : list dvar := d_run [] p.
