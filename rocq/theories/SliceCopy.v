(** * SliceCopy: /repo/src/slice_copy.rs, /repo/src/index_slice.rs and the [ElementBytes] traits of
    /repo/src/lib.rs, plus the slice-valued methods of /repo/src/vec_copy.rs.

    [SliceCopy] and [SliceCopyMut] have the same fields and are modelled by one record.  Lifetimes
    are the subject of Borrow.v.  A mutating method returns the new contents.  A mutable sub-view
    is a pair of the byte offset where it starts and the sub-slice; whatever is done to it,
    [sl_put] writes the result back into the parent, which is what sharing the memory means. *)

From Verif Require Export VecCopy.

(** src/slice_copy.rs:18-27, [SliceCopy] and 382-390, [SliceCopyMut]. *)
Record slicecopy (V : Type) : Type := SliceCopy {
  sl_data : list mbyte;
  sl_elem : elem_info;
  sl_vtable : V
}.
Arguments SliceCopy {V}. Arguments sl_data {V}. Arguments sl_elem {V}. Arguments sl_vtable {V}.

(** ** index_slice.rs *)

(** The range types that can index a slice.  The flag of an inclusive range says whether it has
    been iterated to exhaustion. *)
Inductive range : Type :=
| RRange (a b : N)
| RTo (b : N)
| RFrom (a : N)
| RFull
| RIncl (a b : N) (exhausted : bool)
| RToIncl (b : N).

(** src/index_slice.rs:10-56, [ScaleRange::scale_range].  The inclusive case builds a new range,
    which is never exhausted. *)
Definition scale_range (P : profile) (r : range) (scale : N) : outcome range :=
  match r with
  | RRange a b => let! a' := umul P a scale in let! b' := umul P b scale in Ret (RRange a' b')
  | RTo b => let! b' := umul P b scale in Ret (RTo b')
  | RFrom a => let! a' := umul P a scale in Ret (RFrom a')
  | RFull => Ret RFull
  | RIncl a b _ =>
      let! a' := umul P a scale in let! b' := umul P b scale in Ret (RIncl a' b' false)
  | RToIncl b => let! b' := umul P b scale in Ret (RToIncl b')
  end.

(** std: [SliceIndex::index] for each range type on a slice of length [n]: start and end of the
    selection, or a panic. *)
Definition range_bounds (r : range) (n : N) : outcome (N * N) :=
  let excl a b := if (a <=? b) && (b <=? n) then Ret (a, b) else Panic PIndex in
  match r with
  | RRange a b => excl a b
  | RTo b => excl 0 b
  | RFrom a => if a <=? n then Ret (a, n) else Panic PIndex
  | RFull => Ret (0, n)
  | RIncl a b exhausted =>
      if b =? usize_max then Panic PIndex
      else excl (if exhausted then b + 1 else a) (b + 1)
  | RToIncl b => if b =? usize_max then Panic PIndex else excl 0 (b + 1)
  end.

Definition index_with {A} (r : range) (l : list A) : outcome (N * list A) :=
  let! ab := range_bounds r (lenN l) in
  Ret (fst ab, firstnN (snd ab - fst ab) (skipnN (fst ab) l)).

Section SliceOps.
Context {V : Type} (P : profile) (G : tenv).

(** src/slice_copy.rs:32-55, 395-418, [from_slice], [from_slice_non_copy] (also 373 and 822). *)
Definition sl_from_slice (t : tyid) (xs : list payload) (build : V) : slicecopy V :=
  SliceCopy (encs G t xs) (elem_new G t) build.

(** src/slice_copy.rs:69-94, 427-452, [into_raw_parts], [from_raw_parts]. *)
Definition sl_from_raw_parts (data : list mbyte) (elem : elem_info) (vt : V) : slicecopy V :=
  SliceCopy data elem vt.
Definition sl_into_raw_parts (s : slicecopy V) : list mbyte * elem_info * V :=
  (sl_data s, sl_elem s, sl_vtable s).

(** src/slice_copy.rs:136-142, 511-529, [reborrow], [reborrow_mut] and the conversions 827-843. *)
Definition sl_reborrow (s : slicecopy V) : slicecopy V :=
  SliceCopy (sl_data s) (sl_elem s) (sl_vtable s).

(** src/slice_copy.rs:150, 537, [element_type_id]; 169, [element_size]. *)
Definition sl_element_type_id (s : slicecopy V) : tyid := e_type_id (sl_elem s).
Definition sl_element_size (s : slicecopy V) : N := num_bytes (sl_elem s).

(** src/slice_copy.rs:124-130, 499-505, [check]. *)
Definition sl_check (t : tyid) (s : slicecopy V) : bool := t =? sl_element_type_id s.

(** src/slice_copy.rs:156-159, 543-546, [len]. *)
Definition sl_len (s : slicecopy V) : outcome N :=
  let! _ := if debug_assertions P then
              let! r := umod (lenN (sl_data s)) (num_bytes (sl_elem s)) in
              debug_assert P (r =? 0)
            else Ret tt in
  udiv (lenN (sl_data s)) (num_bytes (sl_elem s)).

(** src/slice_copy.rs:163, 550, [is_empty]. *)
Definition sl_is_empty (s : slicecopy V) : bool := lenN (sl_data s) =? 0.

(** src/slice_copy.rs:218-221, [SliceCopy::as_slice] and reading it (also 186-188, [iter_as]). *)
Definition sl_as_slice (t : tyid) (s : slicecopy V) : outcome (option (list payload)) :=
  if sl_check t s then
    let! n := sl_len s in
    let! xs := read_vals G t (N.to_nat n) (sl_data s) in Ret (Some xs)
  else Ret None.

(** src/slice_copy.rs:598-602, [SliceCopyMut::as_slice] and reading it: the length is computed
    before the type check. *)
Definition slm_as_slice (t : tyid) (s : slicecopy V) : outcome (option (list payload)) :=
  let! n := sl_len s in
  if sl_check t s then
    let! xs := read_vals G t (N.to_nat n) (sl_data s) in Ret (Some xs)
  else Ret None.

(** The slice with [bs] written at byte offset [off]. *)
Definition sl_write (off : N) (bs : list mbyte) (s : slicecopy V) : slicecopy V :=
  SliceCopy (splice off bs (sl_data s)) (sl_elem s) (sl_vtable s).

(** Write a mutable sub-view back. *)
Definition sl_put (off : N) (sub : slicecopy V) (s : slicecopy V) : slicecopy V :=
  sl_write off (sl_data sub) s.

(** src/slice_copy.rs:598-602, [SliceCopyMut::as_slice] followed by overwriting each element (also
    567-569, [iter_as]). *)
Definition slm_update (t : tyid) (f : nat -> payload -> payload) (s : slicecopy V)
  : outcome bool * slicecopy V :=
  match slm_as_slice t s with
  | Ret (Some xs) => (Ret true, sl_write 0 (encs G t (mapi f xs)) s)
  | Ret None => (Ret false, s)
  | o => (retype o, s)
  end.

(** src/slice_copy.rs:490-494, [copy_from_slice]; std panics when the lengths differ. *)
Definition slm_copy_from_slice (t : tyid) (src : list payload) (s : slicecopy V)
  : outcome bool * slicecopy V :=
  match slm_as_slice t s with
  | Ret (Some xs) =>
      if lenN xs =? lenN src then (Ret true, sl_write 0 (encs G t src) s)
      else (Panic PIndex, s)
  | Ret None => (Ret false, s)
  | o => (retype o, s)
  end.

(** src/slice_copy.rs:225-229, 606-610, [get_as] and reading. *)
Definition sl_get_as (t : tyid) (i : N) (s : slicecopy V) : outcome (option payload) :=
  let! n := sl_len s in
  let! _ := assert_ (i <? n) in
  if sl_check t s then
    let sz := t_size (G t) in
    if lenN (sl_data s) <? (i + 1) * sz then UB UbOob
    else let! v := read_val G t (firstnN sz (skipnN (i * sz) (sl_data s))) in Ret (Some v)
  else Ret None.

(** src/slice_copy.rs:606-610, [*get_as::<T>(i)? = v]. *)
Definition slm_set_as (t : tyid) (i : N) (v : payload) (s : slicecopy V)
  : outcome bool * slicecopy V :=
  match sl_get_as t i s with
  | Ret (Some _) => (Ret true, sl_write (i * t_size (G t)) (enc G t v) s)
  | Ret None => (Ret false, s)
  | o => (retype o, s)
  end.

(** src/slice_copy.rs:193-200, 574-581, [append_copy_to_vec]. *)
Definition sl_append_copy_to_vec (t : tyid) (s : slicecopy V) (vec : svec) (w : world)
  : outcome bool * svec * world :=
  match sl_as_slice t s with
  | Ret (Some xs) =>
      match v_reserve (t_size (G t)) (t_align (G t)) (lenN xs) vec w with
      | (Ret _, vec1, w1) =>
          (Ret true, SVec (v_blk vec1) (v_len vec1 + lenN xs) (v_cap vec1)
                          (v_bytes vec1 ++ encs G t xs), w1)
      | (o, vec1, w1) => (retype o, vec1, w1)
      end
  | Ret None => (Ret false, vec, w)
  | o => (retype o, vec, w)
  end.

(** src/slice_copy.rs:204-212, 585-593, [copy_into_vec]. *)
Definition sl_copy_into_vec (t : tyid) (s : slicecopy V) (w : world)
  : outcome (option svec) * world :=
  match sl_append_copy_to_vec t s svec_nil w with
  | (Ret true, vec, w') => (Ret (Some vec), w')
  | (Ret false, vec, w') =>
      let '(o, w'') := vec_drop G t vec w' in (let! _ := o in Ret None, w'')
  | (Panic p, vec, w') => let '(o, w'') := vec_drop G t vec w' in (unwind p o, w'')
  | (o, _, w') => (retype o, w')
  end.

(** src/slice_copy.rs:626-628, [rotate_left] on bytes. *)
Definition slm_rotate_left (mid : N) (s : slicecopy V) : outcome unit * slicecopy V :=
  match umul P mid (sl_element_size s) with
  | Ret m =>
      if m <=? lenN (sl_data s) then
        (Ret tt, SliceCopy (skipnN m (sl_data s) ++ firstnN m (sl_data s))
                           (sl_elem s) (sl_vtable s))
      else (Panic PAssert, s)
  | o => (retype o, s)
  end.

(** src/slice_copy.rs:644-646, [rotate_right] on bytes. *)
Definition slm_rotate_right (k : N) (s : slicecopy V) : outcome unit * slicecopy V :=
  match umul P k (sl_element_size s) with
  | Ret m =>
      if m <=? lenN (sl_data s) then
        let mid := lenN (sl_data s) - m in
        (Ret tt, SliceCopy (skipnN mid (sl_data s) ++ firstnN mid (sl_data s))
                           (sl_elem s) (sl_vtable s))
      else (Panic PAssert, s)
  | o => (retype o, s)
  end.

(** References made from element-sized chunks. *)
Definition sl_ref (s : slicecopy V) (bs : list mbyte) : copy_ref V :=
  CopyRef bs (sl_element_type_id s) (e_alignment (sl_elem s)) (sl_vtable s).
Definition sl_mut (s : slicecopy V) (bs : list mbyte) : copy_mut V :=
  CopyMut bs (sl_element_type_id s) (e_alignment (sl_elem s)) (sl_vtable s).

(** src/slice_copy.rs:251-273, [iter], [into_iter]; 350-352, [byte_chunks]. *)
Definition sl_iter (s : slicecopy V) : outcome (list (copy_ref V)) :=
  let! cs := chunks_exact (num_bytes (sl_elem s)) (sl_data s) in
  Ret (map (sl_ref s) cs).

(** src/slice_copy.rs:658-681, [SliceCopyMut::iter], [into_iter]. *)
Definition slm_iter (s : slicecopy V) : outcome (list (copy_mut V)) :=
  let! cs := chunks_exact (num_bytes (sl_elem s)) (sl_data s) in
  Ret (map (sl_mut s) cs).

(** [for v in s.iter() { v.copy(r); }] on a [SliceCopyMut]. *)
Definition slm_iter_copy {U} (r : copy_ref U) (s : slicecopy V) : outcome unit * slicecopy V :=
  match slm_iter s with
  | Ret ms =>
      match copy_each ms r with
      | Ret bs => (Ret tt, sl_write 0 (List.concat bs) s)
      | o => (retype o, s)
      end
  | o => (retype o, s)
  end.

(** src/slice_copy.rs:276-284, 684-703, [chunks_exact], [chunks_exact_mut]. *)
Definition sl_chunks_exact (chunk_size : N) (s : slicecopy V) : outcome (list (slicecopy V)) :=
  let! n := umul P (num_bytes (sl_elem s)) chunk_size in
  let! cs := chunks_exact n (sl_data s) in
  Ret (map (fun bs => SliceCopy bs (sl_elem s) (sl_vtable s)) cs).

(** src/slice_copy.rs:286-299, 705-718, [split_at]; std panics when out of range.  The second
    component starts at the byte offset returned. *)
Definition sl_split_at (mid : N) (s : slicecopy V) : outcome (slicecopy V * N * slicecopy V) :=
  let! m := umul P mid (num_bytes (sl_elem s)) in
  if m <=? lenN (sl_data s) then
    Ret (SliceCopy (firstnN m (sl_data s)) (sl_elem s) (sl_vtable s), m,
         SliceCopy (skipnN m (sl_data s)) (sl_elem s) (sl_vtable s))
  else Panic PIndex.

(** src/slice_copy.rs:303-315, 722-734, [get] (and src/lib.rs:203-205).  The length is evaluated
    only inside the [debug_assert!]. *)
Definition sl_bounds_debug (i : N) (s : slicecopy V) : outcome unit :=
  if debug_assertions P then
    let! n := sl_len s in debug_assert P (i <? n)
  else Ret tt.
Definition sl_get (i : N) (s : slicecopy V) : outcome (copy_ref V) :=
  let! _ := sl_bounds_debug i s in
  let! r := index_byte_range P (sl_element_size s) i in
  let! bs := index_range (sl_data s) (fst r) (snd r) in
  Ret (sl_ref s bs).

(** src/slice_copy.rs:738-753, [get_mut]: byte offset and reference. *)
Definition slm_get_mut (i : N) (s : slicecopy V) : outcome (N * copy_mut V) :=
  let! _ := sl_bounds_debug i s in
  let! r := index_byte_range P (sl_element_size s) i in
  let! bs := index_range (sl_data s) (fst r) (snd r) in
  Ret (fst r, sl_mut s bs).

(** [s.get_mut(i).copy(other)]. *)
Definition slm_get_mut_copy {U} (i : N) (other : copy_ref U) (s : slicecopy V)
  : outcome bool * slicecopy V :=
  match slm_get_mut i s with
  | Ret (off, m) =>
      match cm_copy m other with
      | Ret (Some m') => (Ret true, sl_write off (cm_bytes m') s)
      | Ret None => (Ret false, s)
      | o => (retype o, s)
      end
  | o => (retype o, s)
  end.

(** src/slice_copy.rs:319-342, 757-794, [subslice], [subslice_mut], [into_subslice]: byte offset of
    the sub-slice and the sub-slice. *)
Definition sl_subslice (r : range) (s : slicecopy V) : outcome (N * slicecopy V) :=
  let! r' := scale_range P r (sl_element_size s) in
  let! p := index_with r' (sl_data s) in
  Ret (fst p, SliceCopy (snd p) (sl_elem s) (sl_vtable s)).

(** src/lib.rs:225-245, [ElementBytesMut::swap]; src/slice_copy.rs:456-458.  [split_at_mut], the
    indexing of each part and [swap_with_slice] each check their ranges. *)
Definition slm_swap (i j : N) (s : slicecopy V) : outcome unit * slicecopy V :=
  if i =? j then (Ret tt, s)
  else
    let es := sl_element_size s in
    let body :=
      let! r_rng := index_byte_range P es 0 in
      let lo := if i <? j then i else j in
      let hi := if i <? j then j else i in
      let! l_rng := index_byte_range P es lo in
      let! m := umul P es hi in
      if m <=? lenN (sl_data s) then
        let l := firstnN m (sl_data s) in
        let r := skipnN m (sl_data s) in
        let! a := index_range l (fst l_rng) (snd l_rng) in
        let! b := index_range r (fst r_rng) (snd r_rng) in
        if lenN a =? lenN b then
          Ret (splice (fst l_rng) b l ++ splice (fst r_rng) a r)
        else Panic PIndex
      else Panic PIndex in
    match body with
    | Ret d => (Ret tt, SliceCopy d (sl_elem s) (sl_vtable s))
    | o => (retype o, s)
    end.

(** src/meta.rs:67-85, [From<SliceCopy>], [From<SliceCopyMut>] for [Meta]. *)
Definition meta_of_slice (s : slicecopy V) : meta V := Meta (sl_elem s) (sl_vtable s).

(** ** Slices of a [VecCopy] *)

(** src/vec_copy.rs:688-717, [as_slice], [as_mut_slice]. *)
Definition vc_as_slice (self : veccopy V) : outcome (slicecopy V) :=
  let d := vc_data self in
  let! n := umul P (vv_len d) (num_bytes (vv_elem d)) in
  if lenN (vv_bytes d) <? n then UB UbOob
  else Ret (SliceCopy (firstnN n (vv_bytes d)) (vv_elem d) (vc_vtable self)).

(** Run a mutating slice method on [self.as_mut_slice()]. *)
Definition vc_with_mut_slice {A} (f : slicecopy V -> outcome A * slicecopy V) (self : veccopy V)
  : outcome A * veccopy V :=
  match vc_as_slice self with
  | Ret s =>
      let '(o, s') := f s in
      (o, VecCopy (vv_splice 0 (sl_data s') (vc_data self)) (vc_vtable self))
  | o => (retype o, self)
  end.

(** src/vec_copy.rs:282-288, [VecCopy::copy_from_slice]. *)
Definition vc_copy_from_slice (t : tyid) (src : list payload) (self : veccopy V)
  : outcome bool * veccopy V :=
  vc_with_mut_slice (slm_copy_from_slice t src) self.

End SliceOps.

(** src/slice_copy.rs:100-118, 464-482, [upcast], [upcast_with]. *)
Definition sl_upcast {V U} (from : V -> U) (s : slicecopy V) : slicecopy U :=
  SliceCopy (sl_data s) (sl_elem s) (from (sl_vtable s)).
