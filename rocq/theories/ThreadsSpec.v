(** * ThreadsSpec: when elements may cross threads. *)

From Verif Require Import Base Derive DeriveSpec Threads.

(** An element type: whether it is [Send] and [Sync]. *)
Record element : Type := Element { e_send : Prop; e_sync : Prop }.
Definition element_is (e : element) (m : marker) : Prop :=
  match m with MSend => e_send e | MSync => e_sync e end.

(** The contract of the unsafe traits [HasSend] and [HasSync]: containers whose table implements
    them hold only elements that are [Send], [Sync]. *)
Definition promised (V : table_type) (e : element) : Prop :=
  forall m, table_has V m = true -> element_is e m.

(** The typed type a container or view hides: [Vec<T>], [Box<T>], [&[T]], [&mut [T]], [&T], [&mut T]. *)
Inductive typed : Type := TyOwned | TyRef | TyMut.
Definition hides (h : handle) : typed :=
  match h with
  | HVecVoid | HVecCopy | HVecDyn | HBoxValue | HSmallValue => TyOwned
  | HSliceCopy | HSlice | HCopyValueRef | HValueRef => TyRef
  | HSliceCopyMut | HSliceMut | HCopyValueMut | HValueMut => TyMut
  end.
(** The rules of the language: a reference may be sent only if what it points to may be shared. *)
Definition typed_is (t : typed) (e : element) (m : marker) : Prop :=
  match t, m with
  | TyRef, _ => e_sync e
  | _, MSend => e_send e
  | _, MSync => e_sync e
  end.

(** The traits of a module an element type implements: with a trait come its supertraits; [Send] and
    [Sync] are what they are. *)
Record implementor (its : list item_trait) (e : element) (impl : trait -> Prop) : Prop := Implementor
  { im_up : forall a b, impl a -> inherits its a b -> impl b;
    im_send : impl TSend -> e_send e;
    im_sync : impl TSync -> e_sync e }.
