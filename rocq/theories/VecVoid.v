(** * VecVoid: /repo/src/elem.rs, /repo/src/vec_void.rs and the [VecVoid] part of
    /repo/src/vec_copy.rs. *)

From Verif Require Export StdVec.

(** ** elem.rs *)

(** src/elem.rs:26-57, [generate_aligned_types!]: the size (and, by [repr(align)], alignment) of
    T0, T1, ..., T29. *)
Definition aligned_types : list N :=
  [1; 2; 4; 8; 16; 32; 64; 128; 256; 512; 1024; 2048; 4096; 8192; 16384; 32768; 65536; 131072;
   262144; 524288; 1048576; 2097152; 4194304; 8388608; 16777216; 33554432; 67108864; 134217728;
   268435456; 536870912].

(** src/elem.rs:86-119: the arms of [eval_align!]: alignment literal and index of the carrier. *)
Definition eval_align_arms : list (N * nat) :=
  [(1, 0%nat); (2, 1%nat); (4, 2%nat); (8, 3%nat); (16, 4%nat); (32, 5%nat); (64, 6%nat);
   (128, 7%nat); (256, 8%nat); (512, 9%nat); (1024, 10%nat); (2048, 11%nat); (4096, 12%nat);
   (8192, 13%nat); (16384, 14%nat); (32768, 15%nat); (65536, 16%nat); (131072, 17%nat);
   (262144, 18%nat); (524288, 19%nat); (1048576, 20%nat); (2097152, 21%nat); (4194304, 22%nat);
   (8388608, 23%nat); (16777216, 24%nat); (33554432, 25%nat); (67108864, 26%nat);
   (134217728, 27%nat); (268435456, 28%nat); (536870912, 29%nat)].

(** src/elem.rs:65-83: the arms of [eval_align!(limited_stack, ...)]. *)
Definition eval_align_limited_arms : list (N * nat) :=
  [(1, 0%nat); (2, 1%nat); (4, 2%nat); (8, 3%nat); (16, 4%nat); (32, 5%nat); (64, 6%nat);
   (128, 7%nat); (256, 8%nat); (512, 9%nat); (1024, 10%nat); (2048, 11%nat); (4096, 12%nat);
   (8192, 13%nat)].

Fixpoint find_arm (arms : list (N * nat)) (a : N) : option nat :=
  match arms with
  | [] => None
  | (lit, k) :: arms' => if a =? lit then Some k else find_arm arms' a
  end.

(** src/elem.rs:60-121, [eval_align!]: the size = alignment of the carrier type the dispatch
    selects; [None] is the [unreachable!] arm. *)
Definition eval_align_with (arms : list (N * nat)) (a : N) : option N :=
  match find_arm arms a with
  | Some k => nth_error aligned_types k
  | None => None
  end.
Definition eval_align (a : N) : option N := eval_align_with eval_align_arms a.
Definition eval_align_limited (a : N) : option N := eval_align_with eval_align_limited_arms a.

(** src/elem.rs:126-136, [ElemInfo]. *)
Record elem_info : Type := ElemInfo {
  e_type_id : tyid;
  e_size : N;        (* number of alignment-sized chunks per element *)
  e_alignment : N
}.

(** src/elem.rs:140-146, [ElemInfo::new]. *)
Definition elem_new (G : tenv) (t : tyid) : elem_info :=
  ElemInfo t (t_size (G t) / t_align (G t)) (t_align (G t)).

(** src/elem.rs:149-151, [ElemInfo::num_bytes].  The product is the size of a type, so it cannot
    overflow usize; it is computed exactly. *)
Definition num_bytes (e : elem_info) : N := e_size e * e_alignment e.

(** ** vec_void.rs *)

(** src/vec_void.rs:15-24, [VecVoid].  [vv_blk] is the identity of the heap block behind [ptr]
    ([None]: dangling), [vv_bytes] the bytes of the [len] elements stored there. *)
Record vecvoid : Type := VecVoid {
  vv_blk : option N;
  vv_len : N;
  vv_cap : N;
  vv_elem : elem_info;
  vv_bytes : list mbyte
}.

(** src/vec_void.rs:103-114, [into_valid_vec]. *)
Definition into_valid_vec (sz al : N) (v : svec) (w : world) : outcome unit * svec * world :=
  if v_capacity sz v =? 0 then v_reserve sz al 1 v w else (Ret tt, v, w).

(** src/vec_void.rs:121-129, [from_vec].  If the reservation panics the (empty) vector is inside a
    [ManuallyDrop] and is leaked. *)
Definition vv_from_vec (G : tenv) (t : tyid) (v : svec) (w : world) : outcome vecvoid * world :=
  match into_valid_vec (t_size (G t)) (t_align (G t)) v w with
  | (Ret _, v', w') =>
      (Ret (VecVoid (v_blk v') (v_len v') (v_capacity (t_size (G t)) v') (elem_new G t)
                    (v_bytes v')), w')
  | (o, _, w') => (retype o, w')
  end.

(** src/vec_void.rs:77-82, [Default::default]: [from_vec(Vec::<()>::new())].  Given the layout of
    [()], this never allocates (see [vv_default_is_from_vec] in VecVoidProofs.v). *)
Definition vv_default : vecvoid :=
  VecVoid None 0 usize_max (ElemInfo unit_id 0 1) [].

(** src/vec_void.rs:146-169, [from_vec_override] for a vector of carrier elements of size and
    alignment [tk] (so [velem.size] = [tk / tk]).  On a failed assertion the vector is inside a
    [ManuallyDrop] and its block is leaked. *)
Definition from_vec_override (P : profile) (tk : N) (v : svec) (elem : elem_info)
  : outcome vecvoid :=
  let velem_size := tk / tk in
  let! _ := assert_ (tk =? e_alignment elem) in
  let! _ := assert_ (e_size elem <=? v_capacity tk v) in
  let! lb := umul P (v_len v) velem_size in
  let! r := umod lb (e_size elem) in
  let! _ := assert_ (r =? 0) in
  let! len := udiv lb (e_size elem) in
  let! cb := umul P (v_capacity tk v) velem_size in
  let! r := umod cb (e_size elem) in
  let! _ := assert_ (r =? 0) in
  let! cap := udiv cb (e_size elem) in
  Ret (VecVoid (v_blk v) len cap elem (v_bytes v)).

(** src/vec_void.rs:366-374, [aligned_vec_unchecked]: view as a vector of carrier elements. *)
Definition aligned_vec_unchecked (P : profile) (tk : N) (self : vecvoid) : outcome svec :=
  let! _ := debug_assert P (tk =? e_alignment (vv_elem self)) in
  let! _ := debug_assert P (tk =? e_alignment (vv_elem self)) in
  let! len := umul P (vv_len self) (e_size (vv_elem self)) in
  let! cap := umul P (vv_cap self) (e_size (vv_elem self)) in
  Ret (SVec (vv_blk self) len cap (vv_bytes self)).

(** src/vec_void.rs:384-389, [into_vec_unchecked::<T>]. *)
Definition into_vec_unchecked (P : profile) (G : tenv) (t : tyid) (self : vecvoid)
  : outcome svec :=
  let! _ := debug_assert P (t_size (G t) =? num_bytes (vv_elem self)) in
  let! _ := debug_assert P (t_align (G t) =? e_alignment (vv_elem self)) in
  Ret (SVec (vv_blk self) (vv_len self) (vv_cap self) (vv_bytes self)).

(** src/vec_void.rs:392-401, [Drop for VecVoid]: free the block as a vector of carriers. *)
Definition vv_drop (P : profile) (self : vecvoid) (w : world) : outcome unit * world :=
  match eval_align (e_alignment (vv_elem self)) with
  | None => (Panic PUnreachable, w)
  | Some tk =>
      match aligned_vec_unchecked P tk self with
      | Ret v => v_drop_nodrop tk tk v w
      | o => (retype o, w)
      end
  end.

(** src/vec_void.rs:174-184, [apply_aligned_unchecked].  [X] is other state the closure borrows
    mutably (used by [append]).  [mem::take] leaves the default vector in [self] while the closure
    runs, so that is what remains after a panic; the vector of carriers is dropped when the closure
    panics and leaked when [from_vec_override] panics.  Dropping the replaced default vector at the
    end frees nothing and is omitted. *)
Definition apply_aligned_unchecked {X A : Type} (P : profile) (tk : N)
    (f : svec -> X -> world -> outcome A * svec * X * world)
    (self : vecvoid) (x : X) (w : world) : outcome A * vecvoid * X * world :=
  let orig_elem := vv_elem self in
  match aligned_vec_unchecked P tk self with
  | Ret v =>
      match f v x w with
      | (Ret a, v', x', w') =>
          match from_vec_override P tk v' orig_elem with
          | Ret self' => (Ret a, self', x', w')
          | o => (retype o, vv_default, x', w')
          end
      | (Panic p, v', x', w') =>
          let '(o, w'') := v_drop_nodrop tk tk v' w' in (unwind p o, vv_default, x', w'')
      | (o, _, x', w') => (retype o, vv_default, x', w')
      end
  | o => (retype o, vv_default, x, w)
  end.

(** src/vec_void.rs:189-198, [apply_unchecked::<T>]: as above with the real element type, whose
    destructors run when the closure panics. *)
Definition apply_unchecked {A : Type} (P : profile) (G : tenv) (t : tyid)
    (f : svec -> world -> outcome A * svec * world)
    (self : vecvoid) (w : world) : outcome A * vecvoid * world :=
  match into_vec_unchecked P G t self with
  | Ret v =>
      match f v w with
      | (Ret a, v', w') =>
          match vv_from_vec G t v' w' with
          | (Ret self', w'') => (Ret a, self', w'')
          | (o, w'') => (retype o, vv_default, w'')
          end
      | (Panic p, v', w') =>
          let '(o, w'') := vec_drop G t v' w' in (unwind p o, vv_default, w'')
      | (o, _, w') => (retype o, vv_default, w')
      end
  | o => (retype o, vv_default, w)
  end.

(** Closures that borrow nothing else. *)
Definition lift0 {A} (f : svec -> world -> outcome A * svec * world)
  : svec -> unit -> world -> outcome A * svec * unit * world :=
  fun v _ w => let '(o, v', w') := f v w in (o, v', tt, w').
Definition drop0 {A} (r : outcome A * vecvoid * unit * world) : outcome A * vecvoid * world :=
  let '(o, v, _, w) := r in (o, v, w).

(** The dispatch around every [VecVoid] method: [eval_align!(self.elem.alignment; ...)]. *)
Definition dispatch {A} (ev : N -> option N) (P : profile)
    (f : N -> svec -> world -> outcome A * svec * world)
    (self : vecvoid) (w : world) : outcome A * vecvoid * world :=
  match ev (e_alignment (vv_elem self)) with
  | None => (Panic PUnreachable, self, w)
  | Some tk => drop0 (apply_aligned_unchecked P tk (lift0 (f tk)) self tt w)
  end.

(** A closure that first computes an outcome (e.g. a multiplication that may overflow). *)
Definition with_val {A} (o : outcome N) (v : svec) (w : world)
    (k : N -> outcome A * svec * world) : outcome A * svec * world :=
  match o with
  | Ret n => k n
  | o' => (retype o', v, w)
  end.

(** src/vec_void.rs:201-211, [clear]. *)
Definition vv_clear (P : profile) : vecvoid -> world -> outcome unit * vecvoid * world :=
  dispatch eval_align P (fun _ v w => (Ret tt, v_clear v, w)).

(** src/vec_void.rs:215-226, [reserve]. *)
Definition vv_reserve (P : profile) (additional : N) (self : vecvoid) (w : world)
  : outcome unit * vecvoid * world :=
  let size := e_size (vv_elem self) in
  dispatch eval_align P
    (fun tk v w => with_val (umul P additional size) v w (fun n => v_reserve tk tk n v w))
    self w.

(** src/vec_void.rs:229-240, [truncate]. *)
Definition vv_truncate (P : profile) (new_len : N) (self : vecvoid) (w : world)
  : outcome unit * vecvoid * world :=
  let size := e_size (vv_elem self) in
  dispatch eval_align P
    (fun tk v w => with_val (umul P new_len size) v w (fun n => (Ret tt, v_truncate tk n v, w)))
    self w.

(** src/vec_void.rs:243-261, [append].  The inner closure runs inside the outer one. *)
Definition vv_append (P : profile) (self other : vecvoid) (w : world)
  : outcome unit * vecvoid * vecvoid * world :=
  if negb (e_type_id (vv_elem self) =? e_type_id (vv_elem other)) then
    (Panic PAssert, self, other, w)
  else if debug_assertions P &&
          negb (e_alignment (vv_elem self) =? e_alignment (vv_elem other)) then
    (Panic PDebugAssert, self, other, w)
  else if debug_assertions P && negb (e_size (vv_elem self) =? e_size (vv_elem other)) then
    (Panic PDebugAssert, self, other, w)
  else
    match eval_align (e_alignment (vv_elem self)) with
    | None => (Panic PUnreachable, self, other, w)
    | Some tk =>
        apply_aligned_unchecked P tk
          (fun target other w =>
             let '(o, other', target', w') :=
               apply_aligned_unchecked P tk
                 (fun source target w =>
                    let '(o, target', source', w') := v_append tk tk target source w in
                    (o, source', target', w'))
                 other target w in
             (o, target', other', w'))
          self other w
    end.

(** src/vec_void.rs:264-279, [push]: reads one carrier element from the front of [val] and pushes
    it. *)
Definition vv_push (P : profile) (val : list mbyte)
  : vecvoid -> world -> outcome unit * vecvoid * world :=
  dispatch eval_align P
    (fun tk v w =>
       if lenN val <? tk then (UB UbOob, v, w)
       else v_push tk tk (firstnN tk val) v w).

(** src/vec_void.rs:303-308: the part of [resize_with] after resizing: [init] overwrites the [nb]
    bytes at the old end [orig_len]; it gets and returns the bytes and may panic. *)
Definition resize_init (tk nb orig_len : N)
    (init : list mbyte -> world -> outcome (list mbyte) * world) (v1 : svec) (w1 : world)
  : outcome unit * svec * world :=
  if v_len v1 <? orig_len then (Panic PIndex, v1, w1)   (* &mut v[orig_len..] *)
  else if lenN (v_bytes v1) <? orig_len * tk + nb then (UB UbOob, v1, w1)
  else
    let pre := firstnN (orig_len * tk) (v_bytes v1) in
    let mid := firstnN nb (skipnN (orig_len * tk) (v_bytes v1)) in
    let post := skipnN (orig_len * tk + nb) (v_bytes v1) in
    match init mid w1 with
    | (Ret bs, w2) =>
        (Ret tt, SVec (v_blk v1) (v_len v1) (v_cap v1) (pre ++ bs ++ post), w2)
    | (o, w2) => (retype o, v1, w2)
    end.

(** src/vec_void.rs:284-313, [resize_with]. *)
Definition vv_resize_with (P : profile) (len : N)
    (init : list mbyte -> world -> outcome (list mbyte) * world)
    (self : vecvoid) (w : world) : outcome unit * vecvoid * world :=
  let size := e_size (vv_elem self) in
  let nb := num_bytes (vv_elem self) in
  dispatch eval_align P
    (fun tk v w =>
       let orig_len := v_len v in
       with_val (umul P len size) v w (fun n =>
         match v_resize_zeroed tk tk n v w with
         | (Ret _, v1, w1) => resize_init tk nb orig_len init v1 w1
         | (o, v1, w1) => (o, v1, w1)
         end))
    self w.

(** Lift a pure vector operation into a closure. *)
Definition pure_op (o : outcome svec) (v : svec) (w : world) : outcome unit * svec * world :=
  match o with
  | Ret v' => (Ret tt, v', w)
  | o' => (retype o', v, w)
  end.

(** src/vec_void.rs:316-328, [rotate_left]. *)
Definition vv_rotate_left (P : profile) (n : N) (self : vecvoid) (w : world)
  : outcome unit * vecvoid * world :=
  let size := e_size (vv_elem self) in
  dispatch eval_align_limited P
    (fun tk v w => with_val (umul P n size) v w (fun m => pure_op (v_rotate_left tk m v) v w))
    self w.

(** src/vec_void.rs:331-343, [rotate_right]. *)
Definition vv_rotate_right (P : profile) (n : N) (self : vecvoid) (w : world)
  : outcome unit * vecvoid * world :=
  let size := e_size (vv_elem self) in
  dispatch eval_align_limited P
    (fun tk v w => with_val (umul P n size) v w (fun m => pure_op (v_rotate_right tk m v) v w))
    self w.

(** src/vec_void.rs:28-56, [Clone::clone]: a new block with the same capacity and bytes.  The
    temporary alias of the source block is never dropped. *)
Definition vv_clone (P : profile) (self : vecvoid) (w : world) : outcome vecvoid * world :=
  match eval_align (e_alignment (vv_elem self)) with
  | None => (Panic PUnreachable, w)
  | Some tk =>
      match aligned_vec_unchecked P tk self with
      | Ret v =>
          match v_with_capacity tk tk (v_capacity tk v) w with
          | (Ret new_v, w1) =>
              match v_clone_from tk tk v new_v w1 with
              | (Ret _, new_v', w2) => (from_vec_override P tk new_v' (vv_elem self), w2)
              | (Panic p, new_v', w2) =>
                  let '(o, w3) := v_drop_nodrop tk tk new_v' w2 in (unwind p o, w3)
              | (o, _, w2) => (retype o, w2)
              end
          | (o, w1) => (retype o, w1)
          end
      | o => (retype o, w)
      end
  end.

(** src/vec_void.rs:58-74, [Clone::clone_from]: dispatches on the alignment of the target. *)
Definition vv_clone_from (P : profile) (source self : vecvoid) (w : world)
  : outcome unit * vecvoid * world :=
  match eval_align (e_alignment (vv_elem self)) with
  | None => (Panic PUnreachable, self, w)
  | Some tk =>
      match aligned_vec_unchecked P tk source with
      | Ret src =>
          (* reading [len] carriers from the source block *)
          if lenN (vv_bytes source) <? v_len src * tk then (UB UbOob, self, w)
          else
            let src' := SVec (v_blk src) (v_len src) (v_cap src)
                             (firstnN (v_len src * tk) (v_bytes src)) in
            drop0 (apply_aligned_unchecked P tk (lift0 (v_clone_from tk tk src')) self tt w)
      | o => (retype o, self, w)
      end
  end.

(** ** The [VecVoid] part of vec_copy.rs *)

(** src/vec_copy.rs:894-901, [ElementBytes::bytes]: [len * num_bytes] bytes from the block. *)
Definition vv_byte_slice (P : profile) (self : vecvoid) : outcome (list mbyte) :=
  let! n := umul P (vv_len self) (num_bytes (vv_elem self)) in
  if lenN (vv_bytes self) <? n then UB UbOob else Ret (firstnN n (vv_bytes self)).

(** src/vec_copy.rs:845-848, [byte_chunks]. *)
Definition vv_byte_chunks (P : profile) (self : vecvoid) : outcome (list (list mbyte)) :=
  let! bs := vv_byte_slice P self in
  chunks_exact (num_bytes (vv_elem self)) bs.

(** src/vec_copy.rs:860-867, [byte_chunks_mut]: the chunks that can be overwritten in place. *)
Definition vv_byte_chunks_mut (P : profile) (self : vecvoid) : outcome (list (list mbyte)) :=
  let! n := umul P (num_bytes (vv_elem self)) (vv_len self) in
  if lenN (vv_bytes self) <? n then UB UbOob
  else chunks_exact (num_bytes (vv_elem self)) (firstnN n (vv_bytes self)).

(** Write back chunks obtained from [vv_byte_chunks_mut]; bytes after the last full chunk (there
    are none in a valid buffer) stay. *)
Definition vv_set_chunks (self : vecvoid) (cs : list (list mbyte)) : vecvoid :=
  let bs := List.concat cs in
  VecVoid (vv_blk self) (vv_len self) (vv_cap self) (vv_elem self)
          (bs ++ skipnN (lenN bs) (vv_bytes self)).

(** src/lib.rs:197-199, [index_byte_range]. *)
Definition index_byte_range (P : profile) (es i : N) : outcome (N * N) :=
  let! a := umul P i es in
  let! i1 := uadd P i 1 in
  let! b := umul P i1 es in
  Ret (a, b).

(** src/vec_copy.rs:871-875, [get_bytes]. *)
Definition vv_get_bytes (P : profile) (i : N) (self : vecvoid) : outcome (list mbyte) :=
  let! _ := debug_assert P (i <? vv_len self) in
  let! bs := vv_byte_slice P self in
  let! r := index_byte_range P (num_bytes (vv_elem self)) i in
  index_range bs (fst r) (snd r).

(** src/vec_copy.rs:884-887 and src/lib.rs:216-219, [get_bytes_mut]: the byte range that the
    returned slice covers. *)
Definition vv_get_bytes_mut (P : profile) (i : N) (self : vecvoid) : outcome (N * list mbyte) :=
  let! _ := debug_assert P (i <? vv_len self) in
  let! r := index_byte_range P (num_bytes (vv_elem self)) i in
  let! bs := vv_byte_slice P self in
  let! s := index_range bs (fst r) (snd r) in
  Ret (fst r, s).

(** Overwrite [bs] at byte offset [off]. *)
Definition splice (off : N) (bs l : list mbyte) : list mbyte :=
  firstnN off l ++ bs ++ skipnN (off + lenN bs) l.
Definition vv_splice (off : N) (bs : list mbyte) (self : vecvoid) : vecvoid :=
  VecVoid (vv_blk self) (vv_len self) (vv_cap self) (vv_elem self)
          (splice off bs (vv_bytes self)).
