(** * Extra: the unchecked accessors of /repo/src/vec_copy.rs and /repo/src/vec_dyn.rs, and the marker
    [HasEq] of /repo/src/traits.rs. *)

From Verif Require Export VecDyn.

Section Unchecked.
Context {V : Type} (G : tenv).

(** src/vec_copy.rs:817-820, [get_unchecked_ref] followed by reading: no check at all.  Reading
    behind the elements is undefined behaviour (simplification: also inside the capacity, where
    the memory is uninitialised), and so is reading bytes that are no [T]. *)
Definition vc_get_unchecked (t : tyid) (i : N) (self : veccopy V) : outcome payload :=
  let sz := t_size (G t) in
  let bs := vv_bytes (vc_data self) in
  if lenN bs <? (i + 1) * sz then UB UbOob else read_val G t (firstnN sz (skipnN (i * sz) bs)).

(** src/vec_copy.rs:833-836, [*get_unchecked_mut(i) = v]. *)
Definition vc_set_unchecked (t : tyid) (i : N) (v : payload) (self : veccopy V) : outcome unit * veccopy V :=
  match vc_get_unchecked t i self with
  | Ret _ => (Ret tt, VecCopy (vv_splice (i * t_size (G t)) (enc G t v) (vc_data self)) (vc_vtable self))
  | o => (retype o, self)
  end.

(** src/vec_dyn.rs:587-589, 604-606, the same for [VecDyn]; the assignment drops the old element. *)
Definition vd_get_unchecked (t : tyid) (i : N) (self : vecdyn V) : outcome payload := vc_get_unchecked t i self.
Definition vd_set_unchecked (t : tyid) (i : N) (x : payload) (self : vecdyn V) (w : world)
  : outcome unit * vecdyn V * world :=
  match vc_get_unchecked t i self with
  | Ret old =>
      let '(o, w') := assign_val G t old w in
      (o, VecCopy (vv_splice (i * t_size (G t)) (enc G t x) (vc_data self)) (vc_vtable self), w')
  | o => (retype o, self, w)
  end.
End Unchecked.

(** src/traits.rs:136, [HasEq]: a marker without functions, which the implementations of [Eq] for
    [VecDyn] (src/vec_dyn.rs:132) and for value references (src/value.rs:446) ask for. *)
Class HasEq (V : Type) `{HasPartialEq V} : Type := {}.
(** src/traits.rs:276; the table is built for every [T: PartialEq] (194-198). *)
Global Instance EqVTable_has_eq : HasEq EqVTable := {}.
(** src/value.rs:88 *)
Global Instance pair_has_eq {V} `{HasEq V} : HasEq (drop_ptr * V) := {}.
