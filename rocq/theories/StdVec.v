(** * StdVec: the part of [std::vec::Vec] that dync relies on.

    This is a model of the Rust standard library, not of /repo; it is part of the trusted base.
    Elements are seen as runs of [sz] bytes.  The growth policy is the one of
    [alloc::raw_vec::RawVec::grow_amortized]. *)

From Verif Require Export Types.

(** A [Vec<T>]; size and alignment of [T] are passed to each operation.  [v_bytes] are the bytes
    of the initialised elements. *)
Record svec : Type := SVec {
  v_blk : option N;
  v_len : N;
  v_cap : N;
  v_bytes : list mbyte
}.

Definition svec_nil : svec := SVec None 0 0 [].

(** [Vec::capacity]: usize::MAX for zero-sized elements. *)
Definition v_capacity (sz : N) (v : svec) : N := if sz =? 0 then usize_max else v_cap v.

(** Largest allocation of alignment [al] that [Layout] accepts. *)
Definition max_alloc (al : N) : N := isize_max - (al - 1).

(** [RawVec::MIN_NON_ZERO_CAP]. *)
Definition min_non_zero_cap (sz : N) : N :=
  if sz =? 1 then 8 else if sz <=? 1024 then 4 else 1.

(** [Vec::with_capacity]. *)
Definition v_with_capacity (sz al n : N) (w : world) : outcome svec * world :=
  if sz =? 0 then (Ret (SVec None 0 0 []), w)
  else if n * sz <=? max_alloc al then
         let '(b, w') := alloc (n * sz) al w in (Ret (SVec b 0 n []), w')
  else (Panic PCapacity, w).

(** [RawVec::grow_amortized], only called when the spare capacity is too small. *)
Definition v_grow (sz al additional : N) (v : svec) (w : world)
  : outcome unit * svec * world :=
  if sz =? 0 then (Panic PCapacity, v, w)
  else
    let required := v_len v + additional in
    if usize_max <? required then (Panic PCapacity, v, w)
    else
      let cap := N.max (min_non_zero_cap sz) (N.max (v_cap v * 2) required) in
      if max_alloc al <? cap * sz then (Panic PCapacity, v, w)
      else
        (* realloc: the old block goes with its layout, the new one is fresh *)
        match dealloc (v_blk v) (v_cap v * sz) al w with
        | (Ret _, w1) =>
            let '(b, w2) := alloc (cap * sz) al w1 in
            (Ret tt, SVec b (v_len v) cap (v_bytes v), w2)
        | (o, w1) => (o, v, w1)
        end.

(** [Vec::reserve]. *)
Definition v_reserve (sz al additional : N) (v : svec) (w : world)
  : outcome unit * svec * world :=
  if v_capacity sz v - v_len v <? additional then v_grow sz al additional v w
  else (Ret tt, v, w).

(** [Vec::push] of an element with bytes [bs]. *)
Definition v_push (sz al : N) (bs : list mbyte) (v : svec) (w : world)
  : outcome unit * svec * world :=
  let '(o, v1, w1) :=
    if v_len v =? v_capacity sz v then v_grow sz al 1 v w else (Ret tt, v, w) in
  match o with
  | Ret _ => (Ret tt, SVec (v_blk v1) (v_len v1 + 1) (v_cap v1) (v_bytes v1 ++ bs), w1)
  | _ => (o, v1, w1)
  end.

(** [Vec::truncate] for elements without destructor. *)
Definition v_truncate (sz n : N) (v : svec) : svec :=
  if v_len v <? n then v
  else SVec (v_blk v) n (v_cap v) (firstnN (n * sz) (v_bytes v)).

(** [Vec::clear] for elements without destructor. *)
Definition v_clear (v : svec) : svec := SVec (v_blk v) 0 (v_cap v) [].

(** [Vec::append]. *)
Definition v_append (sz al : N) (v other : svec) (w : world)
  : outcome unit * svec * svec * world :=
  match v_reserve sz al (v_len other) v w with
  | (Ret _, v1, w1) =>
      (Ret tt,
       SVec (v_blk v1) (v_len v1 + v_len other) (v_cap v1) (v_bytes v1 ++ v_bytes other),
       SVec (v_blk other) 0 (v_cap other) [],
       w1)
  | (o, v1, w1) => (o, v1, other, w1)
  end.

(** [Vec::resize_with(n, Default::default)] for the carrier types T# whose default is all zero
    bytes. *)
Definition v_resize_zeroed (sz al n : N) (v : svec) (w : world)
  : outcome unit * svec * world :=
  if v_len v <? n then
    match v_reserve sz al (n - v_len v) v w with
    | (Ret _, v1, w1) =>
        (Ret tt,
         SVec (v_blk v1) n (v_cap v1)
              (v_bytes v1 ++ repeat (Byte 0) (N.to_nat ((n - v_len v) * sz))),
         w1)
    | r => r
    end
  else (Ret tt, v_truncate sz n v, w).

(** [slice::rotate_left(mid)] / [rotate_right(k)]: panic when out of range. *)
Definition v_rotate_left (sz mid : N) (v : svec) : outcome svec :=
  if mid <=? v_len v then
    Ret (SVec (v_blk v) (v_len v) (v_cap v)
              (skipnN (mid * sz) (v_bytes v) ++ firstnN (mid * sz) (v_bytes v)))
  else Panic PAssert.
Definition v_rotate_right (sz k : N) (v : svec) : outcome svec :=
  if k <=? v_len v then
    let mid := v_len v - k in
    Ret (SVec (v_blk v) (v_len v) (v_cap v)
              (skipnN (mid * sz) (v_bytes v) ++ firstnN (mid * sz) (v_bytes v)))
  else Panic PAssert.

(** [Vec::clone_from] for [Copy] elements: clear, then extend from the source. *)
Definition v_clone_from (sz al : N) (src : svec) (v : svec) (w : world)
  : outcome unit * svec * world :=
  match v_reserve sz al (v_len src) (v_clear v) w with
  | (Ret _, v1, w1) => (Ret tt, SVec (v_blk v1) (v_len src) (v_cap v1) (v_bytes src), w1)
  | r => r
  end.

(** Dropping a [Vec<T>] whose elements have no destructor: free the block, if there is one. *)
Definition v_drop_nodrop (sz al : N) (v : svec) (w : world) : outcome unit * world :=
  dealloc (v_blk v) (v_cap v * sz) al w.

(** A [Vec<T>] in user hands with the given elements and capacity. *)
Definition vec_of (G : tenv) (t : tyid) (b : option N) (cap : N) (xs : list payload) : svec :=
  SVec b (lenN xs) cap (encs G t xs).

(** The elements of a [Vec<T>], read at type [T]. *)
Definition vec_elems (G : tenv) (t : tyid) (v : svec) : outcome (list payload) :=
  read_vals G t (N.to_nat (v_len v)) (v_bytes v).

(** The user makes a [Vec<T>] with elements [xs] and capacity [max cap (len xs)]:
    [Vec::with_capacity(cap)] and then writing the elements. *)
Definition vec_make (G : tenv) (t : tyid) (cap : N) (xs : list payload) (w : world)
  : outcome svec * world :=
  match v_with_capacity (t_size (G t)) (t_align (G t)) (N.max cap (lenN xs)) w with
  | (Ret v, w') => (Ret (SVec (v_blk v) (lenN xs) (v_cap v) (encs G t xs)), w')
  | (o, w') => (o, w')
  end.

(** Dropping a [Vec<T>] of typed elements: the destructor of every element in order, then the
    block.  [drop_in_place] of a slice keeps dropping the remaining elements when one destructor
    panics; a second panic aborts.  If a destructor panicked the block is still freed. *)
Fixpoint drop_vals (G : tenv) (t : tyid) (vs : list payload) (w : world) : outcome unit * world :=
  match vs with
  | [] => (Ret tt, w)
  | v :: vs' =>
      match drop_val G t v w with
      | (Ret _, w1) => drop_vals G t vs' w1
      | (Panic p, w1) => let '(o, w2) := drop_vals G t vs' w1 in (unwind p o, w2)
      | (o, w1) => (o, w1)
      end
  end.

Definition vec_drop (G : tenv) (t : tyid) (v : svec) (w : world) : outcome unit * world :=
  match vec_elems G t v with
  | Ret vs =>
      match drop_vals G t vs w with
      | (Ret _, w1) => v_drop_nodrop (t_size (G t)) (t_align (G t)) v w1
      | (Panic p, w1) =>
          let '(o, w2) := v_drop_nodrop (t_size (G t)) (t_align (G t)) v w1 in (unwind p o, w2)
      | (o, w1) => (o, w1)
      end
  | o => (retype o, w)
  end.
