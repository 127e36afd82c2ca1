(** * VecCopy: /repo/src/vec_copy.rs, /repo/src/copy_value.rs, /repo/src/meta.rs.

    Tables (the parameter [V] of the Rust types) are irrelevant to everything in this file except
    that they are carried along, so [V] is an arbitrary type. *)

From Verif Require Export VecVoid.

(** ** copy_value.rs *)

(** src/copy_value.rs:131-139, [CopyValueRef]. *)
Record copy_ref (V : Type) : Type := CopyRef {
  cr_bytes : list mbyte;
  cr_type_id : tyid;
  cr_alignment : N;
  cr_vtable : V
}.
Arguments CopyRef {V}. Arguments cr_bytes {V}. Arguments cr_type_id {V}.
Arguments cr_alignment {V}. Arguments cr_vtable {V}.

(** src/copy_value.rs:144-154, [CopyValueRef::new]; [build] is [V::build_vtable()]. *)
Definition copy_ref_new {V} (G : tenv) (t : tyid) (v : payload) (build : V) : copy_ref V :=
  CopyRef (enc G t v) t (t_align (G t)) build.

(** src/copy_value.rs:14-34, [size], [is]. *)
Definition cr_size {V} (r : copy_ref V) : N := lenN (cr_bytes r).
Definition cr_is {V} (t : tyid) (r : copy_ref V) : bool := cr_type_id r =? t.

(** src/bytes.rs:82-102, [from_bytes], [from_bytes_mut]: length assertion, then the bytes are read
    at type [T]. *)
Definition from_bytes (G : tenv) (t : tyid) (bs : list mbyte) : outcome payload :=
  let! _ := assert_ (lenN bs =? t_size (G t)) in
  read_val G t bs.

(** src/copy_value.rs:182-185 (and 39-45), [CopyValueRef::downcast]; the reference is read. *)
Definition cr_downcast {V} (G : tenv) (t : tyid) (r : copy_ref V) : outcome (option payload) :=
  if cr_is t r then let! v := from_bytes G t (cr_bytes r) in Ret (Some v) else Ret None.

(** src/copy_value.rs:188-198 and 201-212, [upcast], [upcast_ref]: only the table changes. *)
Definition cr_upcast {V U} (from : V -> U) (r : copy_ref V) : copy_ref U :=
  CopyRef (cr_bytes r) (cr_type_id r) (cr_alignment r) (from (cr_vtable r)).

(** src/copy_value.rs:216-224, [CopyValueMut].  The bytes are those currently behind the reference;
    mutating methods return the new bytes. *)
Record copy_mut (V : Type) : Type := CopyMut {
  cm_bytes : list mbyte;
  cm_type_id : tyid;
  cm_alignment : N;
  cm_vtable : V
}.
Arguments CopyMut {V}. Arguments cm_bytes {V}. Arguments cm_type_id {V}.
Arguments cm_alignment {V}. Arguments cm_vtable {V}.

(** src/copy_value.rs:229-239, [CopyValueMut::new]. *)
Definition copy_mut_new {V} (G : tenv) (t : tyid) (v : payload) (build : V) : copy_mut V :=
  CopyMut (enc G t v) t (t_align (G t)) build.

Definition cm_with_bytes {V} (m : copy_mut V) (bs : list mbyte) : copy_mut V :=
  CopyMut bs (cm_type_id m) (cm_alignment m) (cm_vtable m).

(** std: [copy_from_slice], panics when the lengths differ. *)
Definition bytes_copy_from_slice (dst src : list mbyte) : outcome (list mbyte) :=
  if lenN dst =? lenN src then Ret src else Panic PIndex.

(** src/copy_value.rs:269-276, [copy]: [Some] of the updated reference, [None] when the types
    differ. *)
Definition cm_copy {V U} (self : copy_mut V) (other : copy_ref U) : outcome (option (copy_mut V)) :=
  if cm_type_id self =? cr_type_id other then
    let! bs := bytes_copy_from_slice (cm_bytes self) (cr_bytes other) in
    Ret (Some (cm_with_bytes self bs))
  else Ret None.

(** src/copy_value.rs:280-285, [swap]: both references after the call; the assertion comes after
    the bytes are swapped. *)
Definition cm_swap {V U} (self : copy_mut V) (other : copy_mut U)
  : outcome unit * copy_mut V * copy_mut U :=
  if cm_type_id self =? cm_type_id other then
    if lenN (cm_bytes self) =? lenN (cm_bytes other) then
      let self' := cm_with_bytes self (cm_bytes other) in
      let other' := cm_with_bytes other (cm_bytes self) in
      (assert_ (cm_alignment self =? cm_alignment other), self', other')
    else (Panic PIndex, self, other)
  else (Ret tt, self, other).

(** src/copy_value.rs:289-292, [CopyValueMut::downcast] followed by reading. *)
Definition cm_downcast {V} (G : tenv) (t : tyid) (m : copy_mut V) : outcome (option payload) :=
  if cm_type_id m =? t then let! v := from_bytes G t (cm_bytes m) in Ret (Some v) else Ret None.

(** src/copy_value.rs:289-292, [*m.downcast::<T>()? = v]. *)
Definition cm_downcast_write {V} (G : tenv) (t : tyid) (v : payload) (m : copy_mut V)
  : outcome (option (copy_mut V)) :=
  if cm_type_id m =? t then
    let! _ := from_bytes G t (cm_bytes m) in Ret (Some (cm_with_bytes m (enc G t v)))
  else Ret None.

(** src/copy_value.rs:295-306, [CopyValueMut::upcast]. *)
Definition cm_upcast {V U} (from : V -> U) (m : copy_mut V) : copy_mut U :=
  CopyMut (cm_bytes m) (cm_type_id m) (cm_alignment m) (from (cm_vtable m)).

(** src/copy_value.rs:309-319, [From<CopyValueMut> for CopyValueRef]. *)
Definition cr_of_cm {V} (m : copy_mut V) : copy_ref V :=
  CopyRef (cm_bytes m) (cm_type_id m) (cm_alignment m) (cm_vtable m).

(** ** meta.rs *)

(** src/meta.rs:17-21, [Meta]. *)
Record meta (V : Type) : Type := Meta { m_elem : elem_info; m_vtable : V }.
Arguments Meta {V}. Arguments m_elem {V}. Arguments m_vtable {V}.

(** src/meta.rs:53-65, [From<CopyValueRef> for Meta].  (The division cannot be by zero: the
    alignment comes from [align_of].) *)
Definition meta_of_copy_ref {V} (r : copy_ref V) : meta V :=
  Meta (ElemInfo (cr_type_id r) (lenN (cr_bytes r) / cr_alignment r) (cr_alignment r))
       (cr_vtable r).

(** ** vec_copy.rs *)

(** src/vec_copy.rs:54-63, [VecCopy]. *)
Record veccopy (V : Type) : Type := VecCopy { vc_data : vecvoid; vc_vtable : V }.
Arguments VecCopy {V}. Arguments vc_data {V}. Arguments vc_vtable {V}.

Section VecCopyOps.
Context {V : Type} (P : profile) (G : tenv).

(** Lift an operation on the data to the whole vector. *)
Definition on_data {A} (f : vecvoid -> world -> outcome A * vecvoid * world)
    (self : veccopy V) (w : world) : outcome A * veccopy V * world :=
  let '(o, d, w') := f (vc_data self) w in (o, VecCopy d (vc_vtable self), w').

(** src/vec_copy.rs:143-157, [from_vec_non_copy] (and 134-140, [from_vec]; 935, [From<Vec<T>>]).
    When the assertion fails the argument is dropped while unwinding. *)
Definition vc_from_vec (t : tyid) (vec : svec) (build : V) (w : world)
  : outcome (veccopy V) * world :=
  if t_size (G t) =? 0 then
    let '(o, w') := vec_drop G t vec w in (unwind PAssert o, w')
  else
    match vv_from_vec G t vec w with
    | (Ret d, w') => (Ret (VecCopy d build), w')
    | (o, w') => (retype o, w')
    end.

(** src/vec_copy.rs:68-73, [with_type] (also 78-83). *)
Definition vc_with_type (t : tyid) (build : V) (w : world) : outcome (veccopy V) * world :=
  vc_from_vec t svec_nil build w.

(** src/vec_copy.rs:88-93, [with_capacity] (also 98-103). *)
Definition vc_with_capacity (t : tyid) (n : N) (build : V) (w : world)
  : outcome (veccopy V) * world :=
  match v_with_capacity (t_size (G t)) (t_align (G t)) n w with
  | (Ret v, w') => vc_from_vec t v build w'
  | (o, w') => (retype o, w')
  end.

(** src/vec_copy.rs:116-121, [with_size]: [from_vec(vec![def; n])] for a [Copy] type. *)
Definition vc_with_size (t : tyid) (n : N) (def : payload) (build : V) (w : world)
  : outcome (veccopy V) * world :=
  match vec_make G t n (repeat def (N.to_nat n)) w with
  | (Ret v, w') => vc_from_vec t v build w'
  | (o, w') => (retype o, w')
  end.

(** src/vec_copy.rs:161-168, [from_slice] for a [Copy] type (also 947, [From<&[T]>]). *)
Definition vc_from_slice (t : tyid) (xs : list payload) (build : V) (w : world)
  : outcome (veccopy V) * world :=
  match vec_make G t (lenN xs) xs w with
  | (Ret v, w') => vc_from_vec t v build w'
  | (o, w') => (retype o, w')
  end.

(** src/vec_copy.rs:186-200, [with_type_from]. *)
Definition vc_with_type_from (m : meta V) (w : world) : outcome (veccopy V) * world :=
  match eval_align (e_alignment (m_elem m)) with
  | None => (Panic PUnreachable, w)
  | Some tk =>
      match v_with_capacity tk tk (e_size (m_elem m)) w with
      | (Ret v, w') =>
          match from_vec_override P tk v (m_elem m) with
          | Ret d => (Ret (VecCopy d (m_vtable m)), w')
          | o => (retype o, w')
          end
      | (o, w') => (retype o, w')
      end
  end.

(** src/meta.rs:103-111, [From<&VecCopy> for Meta]. *)
Definition meta_of_vec (self : veccopy V) : meta V :=
  Meta (vv_elem (vc_data self)) (vc_vtable self).

(** src/vec_copy.rs:212-224, [from_raw_parts], [into_raw_parts]. *)
Definition vc_from_raw_parts (d : vecvoid) (vt : V) : veccopy V := VecCopy d vt.
Definition vc_into_raw_parts (self : veccopy V) : vecvoid * V := (vc_data self, vc_vtable self).

(** Dropping a [VecCopy] drops its [VecVoid] (src/vec_void.rs:392-401). *)
Definition vc_drop (self : veccopy V) (w : world) : outcome unit * world :=
  vv_drop P (vc_data self) w.

(** src/vec_copy.rs:53, derived [Clone]. *)
Definition vc_clone (self : veccopy V) (w : world) : outcome (veccopy V) * world :=
  match vv_clone P (vc_data self) w with
  | (Ret d, w') => (Ret (VecCopy d (vc_vtable self)), w')
  | (o, w') => (retype o, w')
  end.

(** src/vec_copy.rs:373-393, accessors. *)
Definition vc_element_type_id (self : veccopy V) : tyid := e_type_id (vv_elem (vc_data self)).
Definition vc_len (self : veccopy V) : N := vv_len (vc_data self).
Definition vc_is_empty (self : veccopy V) : bool := vv_len (vc_data self) =? 0.
Definition vc_capacity (self : veccopy V) : N := vv_cap (vc_data self).
(** src/vec_copy.rs:914-916, [element_size]. *)
Definition vc_element_size (self : veccopy V) : N := num_bytes (vv_elem (vc_data self)).

(** src/vec_copy.rs:337-365, [check], [check_ref], [check_mut]: true when [Some]. *)
Definition vc_check (t : tyid) (self : veccopy V) : bool := t =? vc_element_type_id self.

(** src/vec_copy.rs:251-253, [reserve]. *)
Definition vc_reserve (additional : N) : veccopy V -> world -> outcome unit * veccopy V * world :=
  on_data (vv_reserve P additional).

(** src/vec_copy.rs:292-294, [clear]. *)
Definition vc_clear : veccopy V -> world -> outcome unit * veccopy V * world :=
  on_data (vv_clear P).

(** src/vec_copy.rs:322-332, [push_as]: [true] for [Some], [false] for [None]; on a type mismatch
    the unused argument is dropped. *)
Definition vc_push_as (t : tyid) (v : payload) (self : veccopy V) (w : world)
  : outcome bool * veccopy V * world :=
  if vc_check t self then
    let '(o, self', w') :=
      on_data (apply_unchecked P G t
                 (fun sv w =>
                    (* [Vec::push] owns the element while growing *)
                    let '(o, sv', w') := v_push (t_size (G t)) (t_align (G t)) (enc G t v) sv w in
                    match o with
                    | Panic p => let '(o2, w2) := drop_val G t v w' in (unwind p o2, sv', w2)
                    | _ => (o, sv', w')
                    end)) self w in
    (let! _ := o in Ret true, self', w')
  else
    let '(o, w') := drop_val G t v w in
    (let! _ := o in Ret false, self, w').

(** src/vec_copy.rs:268-270, the loop of [resize]: [push_as] [n] times, ignoring the result. *)
Fixpoint vc_push_n (n : nat) (t : tyid) (v : payload) (self : veccopy V) (w : world)
  : outcome unit * veccopy V * world :=
  match n with
  | O => (Ret tt, self, w)
  | S n' =>
      match vc_push_as t v self w with
      | (Ret _, self', w') => vc_push_n n' t v self' w'
      | (o, self', w') => (retype o, self', w')
      end
  end.

(** src/vec_copy.rs:263-275, [resize] (the value is [Copy]). *)
Definition vc_resize (t : tyid) (new_len : N) (value : payload) (self : veccopy V) (w : world)
  : outcome bool * veccopy V * world :=
  if vc_check t self then
    if vc_len self <=? new_len then
      match vc_reserve (new_len - vc_len self) self w with
      | (Ret _, self1, w1) =>
          let '(o, self2, w2) :=
            vc_push_n (N.to_nat (new_len - vc_len self)) t value self1 w1 in
          (let! _ := o in Ret true, self2, w2)
      | (o, self1, w1) => (retype o, self1, w1)
      end
    else
      let '(o, self1, w1) := on_data (vv_truncate P new_len) self w in
      (let! _ := o in Ret true, self1, w1)
  else (Ret false, self, w).

(** src/vec_copy.rs:463-467, [as_slice_as] followed by reading every element (also 408-410,
    [iter_as]; 476-478). *)
Definition vc_as_slice_as (t : tyid) (self : veccopy V) : outcome (option (list payload)) :=
  if vc_check t self then
    let! xs := read_vals G t (N.to_nat (vc_len self)) (vv_bytes (vc_data self)) in Ret (Some xs)
  else Ret None.

(** src/vec_copy.rs:483-487, [as_mut_slice_as] followed by overwriting the element at each index
    [i] with [f i old] (also 415-417, [iter_mut_as]).  Any in-place change of a [&mut [T]] has this
    form. *)
Definition vc_as_mut_slice_as (t : tyid) (f : nat -> payload -> payload) (self : veccopy V)
  : outcome bool * veccopy V :=
  if vc_check t self then
    match read_vals G t (N.to_nat (vc_len self)) (vv_bytes (vc_data self)) with
    | Ret xs => (Ret true,
                 VecCopy (vv_splice 0 (encs G t (mapi f xs)) (vc_data self)) (vc_vtable self))
    | o => (retype o, self)
    end
  else (Ret false, self).

(** src/vec_copy.rs:309-314, [fill]. *)
Definition vc_fill (t : tyid) (def : payload) : veccopy V -> outcome bool * veccopy V :=
  vc_as_mut_slice_as t (fun _ _ => def).

(** src/vec_copy.rs:491-505, [get_as], [get_ref_as]: the assertion comes before the type check. *)
Definition vc_get_as (t : tyid) (i : N) (self : veccopy V) : outcome (option payload) :=
  let! _ := assert_ (i <? vc_len self) in
  if vc_check t self then
    let sz := t_size (G t) in
    let bs := vv_bytes (vc_data self) in
    if lenN bs <? (i + 1) * sz then UB UbOob
    else let! v := read_val G t (firstnN sz (skipnN (i * sz) bs)) in Ret (Some v)
  else Ret None.

(** src/vec_copy.rs:509-514, [*get_mut_as::<T>(i)? = v]. *)
Definition vc_set_as (t : tyid) (i : N) (v : payload) (self : veccopy V)
  : outcome bool * veccopy V :=
  match assert_ (i <? vc_len self) with
  | Ret _ =>
      if vc_check t self then
        let sz := t_size (G t) in
        let bs := vv_bytes (vc_data self) in
        if lenN bs <? (i + 1) * sz then (UB UbOob, self)
        else
          match read_val G t (firstnN sz (skipnN (i * sz) bs)) with
          | Ret _ => (Ret true,
                      VecCopy (vv_splice (i * sz) (enc G t v) (vc_data self)) (vc_vtable self))
          | o => (retype o, self)
          end
      else (Ret false, self)
  | o => (retype o, self)
  end.

(** src/vec_copy.rs:422-431, [append_copy_to_vec] on a vector [vec] of [T]. *)
Definition vc_append_copy_to_vec (t : tyid) (self : veccopy V) (vec : svec) (w : world)
  : outcome bool * svec * world :=
  match vc_as_slice_as t self with
  | Ret (Some xs) =>
      match v_reserve (t_size (G t)) (t_align (G t)) (vc_len self) vec w with
      | (Ret _, vec1, w1) =>
          (* extend: the iterator has exactly [xs] *)
          match v_reserve (t_size (G t)) (t_align (G t)) (lenN xs) vec1 w1 with
          | (Ret _, vec2, w2) =>
              (Ret true, SVec (v_blk vec2) (v_len vec2 + lenN xs) (v_cap vec2)
                              (v_bytes vec2 ++ encs G t xs), w2)
          | (o, vec2, w2) => (retype o, vec2, w2)
          end
      | (o, vec1, w1) => (retype o, vec1, w1)
      end
  | Ret None => (Ret false, vec, w)
  | o => (retype o, vec, w)
  end.

(** src/vec_copy.rs:435-443, [copy_into_vec]. *)
Definition vc_copy_into_vec (t : tyid) (self : veccopy V) (w : world)
  : outcome (option svec) * world :=
  match vc_append_copy_to_vec t self svec_nil w with
  | (Ret true, vec, w') => (Ret (Some vec), w')
  | (Ret false, vec, w') =>
      let '(o, w'') := vec_drop G t vec w' in (let! _ := o in Ret None, w'')
  | (Panic p, vec, w') => let '(o, w'') := vec_drop G t vec w' in (unwind p o, w'')
  | (o, _, w') => (retype o, w')
  end.

(** src/vec_copy.rs:453-457, [into_vec]: on a mismatch the consumed vector is dropped. *)
Definition vc_into_vec (t : tyid) (self : veccopy V) (w : world)
  : outcome (option svec) * world :=
  if vc_check t self then
    (let! v := into_vec_unchecked P G t (vc_data self) in Ret (Some v), w)
  else
    let '(o, w') := vc_drop self w in (let! _ := o in Ret None, w').

(** src/vec_copy.rs:520-527, [append]. *)
Definition vc_append (self buf : veccopy V) (w : world)
  : outcome bool * veccopy V * veccopy V * world :=
  if vc_element_type_id buf =? vc_element_type_id self then
    let '(o, d, d', w') := vv_append P (vc_data self) (vc_data buf) w in
    (let! _ := o in Ret true, VecCopy d (vc_vtable self), VecCopy d' (vc_vtable buf), w')
  else (Ret false, self, buf, w).

(** src/vec_copy.rs:542-544, 559-561, [rotate_left], [rotate_right]. *)
Definition vc_rotate_left (mid : N) : veccopy V -> world -> outcome unit * veccopy V * world :=
  on_data (vv_rotate_left P mid).
Definition vc_rotate_right (k : N) : veccopy V -> world -> outcome unit * veccopy V * world :=
  on_data (vv_rotate_right P k).

(** src/vec_copy.rs:569-585, [get_ref]: the bounds check is a [debug_assert!]; otherwise raw
    pointer arithmetic, out of the stored elements being undefined behaviour. *)
Definition vc_get_ref (i : N) (self : veccopy V) : outcome (copy_ref V) :=
  let! _ := debug_assert P (i <? vc_len self) in
  let nb := num_bytes (vv_elem (vc_data self)) in
  let! off := umul P i nb in
  if lenN (vv_bytes (vc_data self)) <? off + nb then UB UbOob
  else Ret (CopyRef (firstnN nb (skipnN off (vv_bytes (vc_data self))))
                    (vc_element_type_id self) (e_alignment (vv_elem (vc_data self)))
                    (vc_vtable self)).

(** src/vec_copy.rs:589-603, [get_mut]: byte offset and reference. *)
Definition vc_get_mut (i : N) (self : veccopy V) : outcome (N * copy_mut V) :=
  let! _ := debug_assert P (i <? vc_len self) in
  let nb := num_bytes (vv_elem (vc_data self)) in
  let! off := umul P i nb in
  if lenN (vv_bytes (vc_data self)) <? off + nb then UB UbOob
  else Ret (off, CopyMut (firstnN nb (skipnN off (vv_bytes (vc_data self))))
                         (vc_element_type_id self) (e_alignment (vv_elem (vc_data self)))
                         (vc_vtable self)).

(** [self.get_mut(i).copy(other)]. *)
Definition vc_get_mut_copy {U} (i : N) (other : copy_ref U) (self : veccopy V)
  : outcome bool * veccopy V :=
  match vc_get_mut i self with
  | Ret (off, m) =>
      match cm_copy m other with
      | Ret (Some m') =>
          (Ret true, VecCopy (vv_splice off (cm_bytes m') (vc_data self)) (vc_vtable self))
      | Ret None => (Ret false, self)
      | o => (retype o, self)
      end
  | o => (retype o, self)
  end.

(** src/vec_copy.rs:621-630, [iter]. *)
Definition vc_iter (self : veccopy V) : outcome (list (copy_ref V)) :=
  let! cs := vv_byte_chunks P (vc_data self) in
  Ret (map (fun bs => CopyRef bs (vc_element_type_id self)
                              (e_alignment (vv_elem (vc_data self))) (vc_vtable self)) cs).

(** src/vec_copy.rs:649-662, [iter_mut], each reference being overwritten by
    [copy(CopyValueRef::new(&(f i)))] of type [t]. *)
Fixpoint copy_each {U} (cs : list (copy_mut V)) (r : copy_ref U) : outcome (list (list mbyte)) :=
  match cs with
  | [] => Ret []
  | m :: cs' =>
      let! om := cm_copy m r in
      let bs := match om with Some m' => cm_bytes m' | None => cm_bytes m end in
      let! rest := copy_each cs' r in
      Ret (bs :: rest)
  end.
Definition vc_iter_mut_copy {U} (r : copy_ref U) (self : veccopy V)
  : outcome unit * veccopy V :=
  match vv_byte_chunks_mut P (vc_data self) with
  | Ret cs =>
      match copy_each (map (fun bs => CopyMut bs (vc_element_type_id self)
                                       (e_alignment (vv_elem (vc_data self)))
                                       (vc_vtable self)) cs) r with
      | Ret cs' => (Ret tt, VecCopy (vv_set_chunks (vc_data self) cs') (vc_vtable self))
      | o => (retype o, self)
      end
  | o => (retype o, self)
  end.

(** src/vec_copy.rs:677-685, [push]. *)
Definition vc_push {U} (value : copy_ref U) (self : veccopy V) (w : world)
  : outcome bool * veccopy V * world :=
  if cr_size value =? vc_element_size self then
    if cr_type_id value =? vc_element_type_id self then
      let '(o, self', w') := on_data (vv_push P (cr_bytes value)) self w in
      (let! _ := o in Ret true, self', w')
    else (Ret false, self, w)
  else (Panic PAssert, self, w).

(** src/vec_copy.rs:779-787, [extend]; [hint] is the lower bound of the iterator's size hint. *)
Fixpoint vc_extend_loop {U} (vals : list (copy_ref U)) (self : veccopy V) (w : world)
  : outcome unit * veccopy V * world :=
  match vals with
  | [] => (Ret tt, self, w)
  | value :: vals' =>
      if negb (cr_size value =? vc_element_size self) then (Panic PAssert, self, w)
      else if negb (cr_type_id value =? vc_element_type_id self) then (Panic PAssert, self, w)
      else
        match on_data (vv_push P (cr_bytes value)) self w with
        | (Ret _, self', w') => vc_extend_loop vals' self' w'
        | (o, self', w') => (o, self', w')
        end
  end.
Definition vc_extend {U} (hint : N) (vals : list (copy_ref U)) (self : veccopy V) (w : world)
  : outcome unit * veccopy V * world :=
  match vc_reserve hint self w with
  | (Ret _, self', w') => vc_extend_loop vals self' w'
  | r => r
  end.

(** src/vec_copy.rs:765-774, [from_iter]: [hint] is the size hint after taking the first item.
    If a later step panics the vector under construction is dropped. *)
Definition vc_from_iter (hint : N) (vals : list (copy_ref V)) (w : world)
  : outcome (veccopy V) * world :=
  match vals with
  | [] => (Panic PAssert, w)
  | next :: rest =>
      match vc_with_type_from (meta_of_copy_ref next) w with
      | (Ret data, w1) =>
          match vc_push next data w1 with
          | (Ret _, data1, w2) =>
              match vc_extend hint rest data1 w2 with
              | (Ret _, data2, w3) => (Ret data2, w3)
              | (Panic p, data2, w3) =>
                  let '(o, w4) := vc_drop data2 w3 in (unwind p o, w4)
              | (o, _, w3) => (retype o, w3)
              end
          | (Panic p, data1, w2) => let '(o, w3) := vc_drop data1 w2 in (unwind p o, w3)
          | (o, _, w2) => (retype o, w2)
          end
      | (o, w1) => (retype o, w1)
      end
  end.

End VecCopyOps.

(** src/vec_copy.rs:230-247, [upcast], [upcast_with]. *)
Definition vc_upcast {V U} (from : V -> U) (self : veccopy V) : veccopy U :=
  VecCopy (vc_data self) (from (vc_vtable self)).
