(** * VecDyn: /repo/src/vec_dyn.rs, /repo/src/slice.rs and the rest of /repo/src/meta.rs. *)

From Verif Require Export Value.

(** src/vec_dyn.rs:75-80, [VecDyn]: a [ManuallyDrop<VecCopy<V>>].  [ManuallyDrop] has no run-time
    content, so the state of a [VecDyn] is that of the vector inside. *)
Definition vecdyn (V : Type) : Type := veccopy V.

(** The table of a [VecDyn] sits in a plain [Box] that the compiler drops with its owner; that box
    is not tracked in the allocator ledger. *)

(** Run the body [r] of a function that owns the local [x] of type [t]; [x] is dropped at the end
    of the body or while unwinding. *)
Definition owning {A B} (G : tenv) (t : tyid) (x : payload) (r : outcome A * B * world)
  : outcome A * B * world :=
  match r with
  | (Ret a, b, w) => let '(o, w') := drop_val G t x w in (let! _ := o in Ret a, b, w')
  | (Panic p, b, w) => let '(o, w') := drop_val G t x w in (unwind p o, b, w')
  | r => r
  end.

Section VecDynOps.
Context {V : Type} (P : profile) (G : tenv).

(** ** Helpers: loops over the elements *)

(** [for elem_bytes in chunks { drop_fn(elem_bytes) }]; a panic leaves the loop. *)
Fixpoint drop_chunks (p : drop_ptr) (cs : list (list mbyte)) (w : world) : outcome unit * world :=
  match cs with
  | [] => (Ret tt, w)
  | c :: cs' =>
      match call_drop G p c w with
      | (Ret _, w') => drop_chunks p cs' w'
      | r => r
      end
  end.

(** [src.zip(dst).for_each(|(src, dst)| clone_into_raw_fn(src, dst))]: the bytes of [dst]
    afterwards. *)
Fixpoint clone_chunks (p : clone_raw_ptr) (src dst : list (list mbyte)) (w : world)
  : outcome unit * list (list mbyte) * world :=
  match src, dst with
  | s :: src', d :: dst' =>
      match call_clone_into_raw G p s d w with
      | (Ret bs, w1) =>
          let '(o, rest, w2) := clone_chunks p src' dst' w1 in (o, bs :: rest, w2)
      | (o, w1) => (retype o, dst, w1)
      end
  | _, _ => (Ret tt, dst, w)
  end.

(** Clone typed values one after the other, as std does into a [Vec] whose length follows: the
    clones made before a panic stay in the vector. *)
Fixpoint clone_vals (t : tyid) (xs : list payload) (w : world)
  : outcome unit * list payload * world :=
  match xs with
  | [] => (Ret tt, [], w)
  | x :: xs' =>
      match clone_val G t x w with
      | (Ret c, w1) => let '(o, cs, w2) := clone_vals t xs' w1 in (o, c :: cs, w2)
      | (o, w1) => (retype o, [], w1)
      end
  end.

(** ** Construction *)

(** src/vec_dyn.rs:149-187, [with_type], [with_capacity], [from_vec]: the functions of [VecCopy]
    without the [Copy] bound (src/vec_copy.rs:78-103, 143-157); also 743-748, [From<Vec<T>>]. *)
Definition vd_with_type `{VTable V} (t : tyid) (w : world) : outcome (vecdyn V) * world :=
  vc_with_type G t (build_vtable t) w.
Definition vd_with_capacity `{VTable V} (t : tyid) (n : N) (w : world)
  : outcome (vecdyn V) * world :=
  vc_with_capacity G t n (build_vtable t) w.
Definition vd_from_vec `{VTable V} (t : tyid) (vec : svec) (w : world)
  : outcome (vecdyn V) * world :=
  vc_from_vec G t vec (build_vtable t) w.

(** std: [vec![def; n]] for a [Clone] type: [n - 1] clones and then [def] itself; with [n = 0]
    [def] is dropped.  If a clone panics, the vector made so far and [def] are dropped. *)
Definition vec_from_elem (t : tyid) (n : N) (def : payload) (w : world)
  : outcome svec * world :=
  match v_with_capacity (t_size (G t)) (t_align (G t)) n w with
  | (Ret v, w1) =>
      if n =? 0 then
        let '(o, w2) := drop_val G t def w1 in
        match o with
        | Ret _ => (Ret v, w2)
        | Panic p => let '(o', w3) := vec_drop G t v w2 in (unwind p o', w3)
        | _ => (retype o, w2)
        end
      else
        let '(o, cs, w2) := clone_vals t (repeat def (N.to_nat (n - 1))) w1 in
        match o with
        | Ret _ =>
            (Ret (SVec (v_blk v) (lenN (cs ++ [def])) (v_cap v) (encs G t (cs ++ [def]))), w2)
        | Panic p =>
            (* [def] is an argument of the inner function, the vector a local of the outer one *)
            let '(o1, w3) := drop_val G t def w2 in
            let '(o2, w4) := vec_drop G t (SVec (v_blk v) (lenN cs) (v_cap v) (encs G t cs)) w3 in
            (match o1 with Ret _ => unwind p o2 | _ => Abort end, w4)
        | _ => (retype o, w2)
        end
  | (Panic p, w1) => let '(o, w2) := drop_val G t def w1 in (unwind p o, w2)
  | (o, w1) => (retype o, w1)
  end.

(** src/vec_dyn.rs:611-623, [with_size]. *)
Definition vd_with_size `{VTable V} (t : tyid) (n : N) (def : payload) (w : world)
  : outcome (vecdyn V) * world :=
  match vec_from_elem t n def w with
  | (Ret v, w1) => vd_from_vec t v w1
  | (o, w1) => (retype o, w1)
  end.

(** std: [slice.to_vec()] for a [Clone] type. *)
Definition slice_to_vec (t : tyid) (xs : list payload) (w : world) : outcome svec * world :=
  match v_with_capacity (t_size (G t)) (t_align (G t)) (lenN xs) w with
  | (Ret v, w1) =>
      let '(o, cs, w2) := clone_vals t xs w1 in
      let v' := SVec (v_blk v) (lenN cs) (v_cap v) (encs G t cs) in
      match o with
      | Ret _ => (Ret v', w2)
      | Panic p => let '(o', w3) := vec_drop G t v' w2 in (unwind p o', w3)
      | _ => (retype o, w2)
      end
  | (o, w1) => (retype o, w1)
  end.

(** src/vec_dyn.rs:625-636, [from_slice] (src/vec_copy.rs:170-181, [from_slice_non_copy]); also
    750-761, [From<&[T]>]. *)
Definition vd_from_slice `{VTable V} (t : tyid) (xs : list payload) (w : world)
  : outcome (vecdyn V) * world :=
  match slice_to_vec t xs w with
  | (Ret v, w1) => vd_from_vec t v w1
  | (o, w1) => (retype o, w1)
  end.

(** src/meta.rs:23-50, [From<ValueRef>], [From<ValueMut> for Meta]. *)
Definition meta_of_vref (r : vref V) : meta V :=
  Meta (ElemInfo (vr_type_id r) (lenN (vr_bytes r) / vr_alignment r) (vr_alignment r))
       (vt_take (vr_vtable r)).
Definition meta_of_vmut (m : vmut V) : meta V :=
  Meta (ElemInfo (vm_type_id m) (lenN (vm_bytes m) / vm_alignment m) (vm_alignment m))
       (vt_take (vm_vtable m)).
(** src/meta.rs:66-100, [From] for the four slice types. *)
Definition meta_of_slice (s : slicecopy V) : meta V := Meta (sl_elem s) (sl_vtable s).

(** src/vec_dyn.rs:191-200, [with_type_from]; 771-776, [From<&VecDyn> for Meta]. *)
Definition vd_with_type_from (m : meta V) (w : world) : outcome (vecdyn V) * world :=
  vc_with_type_from P m w.
Definition meta_of_vecdyn (self : vecdyn V) : meta V := meta_of_vec self.

(** src/vec_dyn.rs:211-231, [from_raw_parts], [into_raw_parts]; 234-236, [vtable]. *)
Definition vd_from_raw_parts (d : vecvoid) (tab : V) : vecdyn V := VecCopy d tab.
Definition vd_into_raw_parts (self : vecdyn V) : vecvoid * V := (vc_data self, vc_vtable self).
Definition vd_vtable (self : vecdyn V) : V := vc_vtable self.

(** ** Dropping, cloning, comparing *)

(** src/vec_dyn.rs:84-99, [Drop for VecDyn].  When the loop panics, the rest is leaked. *)
Definition vd_drop `{HasDrop V} (self : vecdyn V) (w : world) : outcome unit * world :=
  match vv_byte_chunks_mut P (vc_data self) with
  | Ret cs =>
      match drop_chunks (drop_fn (vc_vtable self)) cs w with
      | (Ret _, w1) => vc_drop P self w1
      | r => r
      end
  | o => (retype o, w)
  end.

(** src/vec_dyn.rs:101-122, [Clone for VecDyn].  If an element's clone panics the new buffer is
    dropped as a [VecVoid], i.e. without dropping the clones made so far. *)
Definition vd_clone `{HasClone V} (self : vecdyn V) (w : world) : outcome (vecdyn V) * world :=
  match vv_clone P (vc_data self) w with
  | (Ret d, w1) =>
      let r :=
        match vv_byte_chunks P (vc_data self) with
        | Ret src =>
            match vv_byte_chunks_mut P d with
            | Ret dst =>
                let '(o, dst', w2) :=
                  clone_chunks (clone_into_raw_fn (vc_vtable self)) src dst w1 in
                (o, vv_set_chunks d dst', w2)
            | o => (retype o, d, w1)
            end
        | o => (retype o, d, w1)
        end in
      match r with
      | (Ret _, d', w2) => (Ret (VecCopy d' (vc_vtable self)), w2)
      | (Panic p, d', w2) => let '(o, w3) := vv_drop P d' w2 in (unwind p o, w3)
      | (o, _, w2) => (retype o, w2)
      end
  | (o, w1) => (retype o, w1)
  end.

(** src/vec_dyn.rs:494-505, [iter]. *)
Definition vd_iter (self : vecdyn V) : outcome (list (vref V)) :=
  let! cs := vv_byte_chunks P (vc_data self) in
  Ret (map (fun bs => ValRef bs (vc_element_type_id self)
                             (e_alignment (vv_elem (vc_data self))) (VRef (vc_vtable self))) cs).

(** [a.zip(b).all(|(this, that)| this == that)]. *)
Fixpoint all_eq `{HasPartialEq V} (a b : list (vref V)) : outcome bool :=
  match a, b with
  | x :: a', y :: b' =>
      let! e := vr_eq G x y in
      if e then all_eq a' b' else Ret false
  | _, _ => Ret true
  end.

(** src/vec_dyn.rs:124-130, [PartialEq for VecDyn]. *)
Definition vd_eq `{HasPartialEq V} (self other : vecdyn V) : outcome bool :=
  let! a := vd_iter self in
  let! b := vd_iter other in
  all_eq a b.

(** src/vec_dyn.rs:134-138, [Hash for VecDyn]: everything fed to the hasher, in order. *)
Fixpoint hash_all `{HasHash V} (rs : list (vref V)) : outcome (list N) :=
  match rs with
  | [] => Ret []
  | r :: rs' =>
      let! h := vr_hash G r in
      let! hs := hash_all rs' in
      Ret (h ++ hs)
  end.
Definition vd_hash `{HasHash V} (self : vecdyn V) : outcome (list N) :=
  let! rs := vd_iter self in hash_all rs.

Fixpoint fmt_all `{HasDebug V} (rs : list (vref V)) : outcome (list string) :=
  match rs with
  | [] => Ret []
  | r :: rs' =>
      let! s := vr_fmt G r in
      let! ss := fmt_all rs' in
      Ret (s :: ss)
  end.

(** std: [f.debug_list().entries(..).finish()] without the alternate flag. *)
Fixpoint join_entries (ss : list string) : string :=
  match ss with
  | [] => ""
  | [s] => s
  | s :: ss' => s ++ ", " ++ join_entries ss'
  end%string.
Definition debug_list (ss : list string) : string := ("[" ++ join_entries ss ++ "]")%string.

(** src/vec_dyn.rs:140-144, [Debug for VecDyn]. *)
Definition vd_fmt `{HasDebug V} (self : vecdyn V) : outcome string :=
  let! rs := vd_iter self in
  let! ss := fmt_all rs in
  Ret (debug_list ss).

(** ** Accessors *)

(** src/vec_dyn.rs:280-345 and 363-387: [check*], [element_type_id], [len], [is_empty],
    [element_size], [iter_as], [as_slice_as], [get_ref_as] and the [_mut] versions call the
    function of the same name of [VecCopy]. *)
Definition vd_check (t : tyid) (self : vecdyn V) : bool := vc_check t self.
Definition vd_element_type_id (self : vecdyn V) : tyid := vc_element_type_id self.
Definition vd_len (self : vecdyn V) : N := vc_len self.
Definition vd_is_empty (self : vecdyn V) : bool := vc_is_empty self.
Definition vd_element_size (self : vecdyn V) : N := vc_element_size self.
Definition vd_as_slice_as (t : tyid) (self : vecdyn V) : outcome (option (list payload)) :=
  vc_as_slice_as G t self.
Definition vd_get_ref_as (t : tyid) (i : N) (self : vecdyn V) : outcome (option payload) :=
  vc_get_as G t i self.

(** src/vec_dyn.rs:384-387, [*get_mut_as::<T>(i)? = x]: the old element is dropped.  When the
    types differ [x] is dropped. *)
Definition vd_set_as (t : tyid) (i : N) (x : payload) (self : vecdyn V) (w : world)
  : outcome bool * vecdyn V * world :=
  match vc_get_as G t i self with
  | Ret (Some old) =>
      let '(o, w') := assign_val G t old w in
      let d := vv_splice (i * t_size (G t)) (enc G t x) (vc_data self) in
      (let! _ := o in Ret true, VecCopy d (vc_vtable self), w')
  | Ret None => let '(o, w') := drop_val G t x w in (let! _ := o in Ret false, self, w')
  | Panic p => let '(o, w') := drop_val G t x w in (unwind p o, self, w')
  | o => (retype o, self, w)
  end.

(** src/vec_dyn.rs:474-487, [get]. *)
Definition vd_get (i : N) (self : vecdyn V) : outcome (vref V) :=
  let! _ := debug_assert P (i <? vd_len self) in
  let! bs := vv_get_bytes P i (vc_data self) in
  Ret (ValRef bs (vc_element_type_id self) (e_alignment (vv_elem (vc_data self)))
              (VRef (vc_vtable self))).

(** src/vec_dyn.rs:508-530, [get_mut]: byte offset and reference. *)
Definition vd_get_mut (i : N) (self : vecdyn V) : outcome (N * vmut V) :=
  let! _ := debug_assert P (i <? vd_len self) in
  let! r := vv_get_bytes_mut P i (vc_data self) in
  Ret (fst r, ValMut (snd r) (vc_element_type_id self) (e_alignment (vv_elem (vc_data self)))
                     (VRef (vc_vtable self))).

(** [f(&mut self.get_mut(i))]: what is left behind the reference is written back. *)
Definition vd_with_mut {A} (i : N) (f : vmut V -> world -> outcome A * vmut V * world)
    (self : vecdyn V) (w : world) : outcome A * vecdyn V * world :=
  match vd_get_mut i self with
  | Ret (off, m) =>
      let '(o, m', w') := f m w in
      (o, VecCopy (vv_splice off (vm_bytes m') (vc_data self)) (vc_vtable self), w')
  | o => (retype o, self, w)
  end.

(** [self.get_mut(i).assign(value)]; the value is dropped if [get_mut] panics. *)
Definition vd_assign `{Sized V} `{HasDrop V} (i : N) (v : value V) (self : vecdyn V) (w : world)
  : outcome unit * vecdyn V * world :=
  match vd_get_mut i self with
  | Panic p => let '(o, w') := vl_drop G v w in (unwind p o, self, w')
  | _ => vd_with_mut i (fun m w => vm_assign G m v w) self w
  end.

(** [self.get_mut(i).clone_from_other(other)]. *)
Definition vd_clone_from_other `{HasClone V} (i : N) (other : vref V)
  : vecdyn V -> world -> outcome (unit + mismatch) * vecdyn V * world :=
  vd_with_mut i (fun m w => vm_clone_from_other G m other w).

(** [self.get_mut(i).swap(&mut other.get_mut(j))] for two different vectors. *)
Definition vd_swap (i : N) (self : vecdyn V) (j : N) (other : vecdyn V)
  : outcome unit * vecdyn V * vecdyn V :=
  match vd_get_mut i self with
  | Ret (off, m) =>
      match vd_get_mut j other with
      | Ret (off', m') =>
          let '(o, m1, m2) := vm_swap m m' in
          (o, VecCopy (vv_splice off (vm_bytes m1) (vc_data self)) (vc_vtable self),
              VecCopy (vv_splice off' (vm_bytes m2) (vc_data other)) (vc_vtable other))
      | o => (retype o, self, other)
      end
  | o => (retype o, self, other)
  end.

(** src/vec_dyn.rs:537-551, [iter_mut], each reference in turn being given a clone of [other]. *)
Fixpoint clone_from_each `{HasClone V} (ms : list (vmut V)) (other : vref V) (w : world)
  : outcome unit * list (list mbyte) * world :=
  match ms with
  | [] => (Ret tt, [], w)
  | m :: ms' =>
      match vm_clone_from_other G m other w with
      | (Ret _, m', w1) =>
          let '(o, rest, w2) := clone_from_each ms' other w1 in (o, vm_bytes m' :: rest, w2)
      | (o, m', w1) => (retype o, vm_bytes m' :: map vm_bytes ms', w1)
      end
  end.
Definition vd_iter_mut_clone `{HasClone V} (other : vref V) (self : vecdyn V) (w : world)
  : outcome unit * vecdyn V * world :=
  match vv_byte_chunks_mut P (vc_data self) with
  | Ret cs =>
      let '(o, cs', w') :=
        clone_from_each (map (fun bs => ValMut bs (vc_element_type_id self)
                                          (e_alignment (vv_elem (vc_data self)))
                                          (VRef (vc_vtable self))) cs) other w in
      (o, VecCopy (vv_set_chunks (vc_data self) cs') (vc_vtable self), w')
  | o => (retype o, self, w)
  end.

(** ** Changing the contents *)

(** src/vec_dyn.rs:256-267, [clear].  When the loop panics the length is unchanged. *)
Definition vd_clear `{HasDrop V} (self : vecdyn V) (w : world) : outcome unit * vecdyn V * world :=
  match vv_byte_chunks_mut P (vc_data self) with
  | Ret cs =>
      match drop_chunks (drop_fn (vc_vtable self)) cs w with
      | (Ret _, w1) => on_data (vv_clear P) self w1
      | (o, w1) => (o, self, w1)
      end
  | o => (retype o, self, w)
  end.

(** src/vec_dyn.rs:274-278, [push_as]. *)
Definition vd_push_as (t : tyid) (x : payload) : vecdyn V -> world -> outcome bool * vecdyn V * world :=
  vc_push_as P G t x.

(** src/vec_dyn.rs:349-361, [into_vec] (also 763-769): on a mismatch [VecCopy::into_vec] drops the
    vector of bytes; no element is dropped. *)
Definition vd_into_vec (t : tyid) (self : vecdyn V) (w : world) : outcome (option svec) * world :=
  vc_into_vec P G t self w.

(** src/vec_dyn.rs:392-418, [append], [rotate_left], [rotate_right]. *)
Definition vd_append (self buf : vecdyn V) (w : world)
  : outcome bool * vecdyn V * vecdyn V * world := vc_append P self buf w.
Definition vd_rotate_left (k : N) : vecdyn V -> world -> outcome unit * vecdyn V * world :=
  vc_rotate_left P k.
Definition vd_rotate_right (k : N) : vecdyn V -> world -> outcome unit * vecdyn V * world :=
  vc_rotate_right P k.

(** src/vec_dyn.rs:430-441, [push].  The table box of the value is dropped by the [let]; the byte
    box is dropped, as a box of bytes, at the end of the block or while unwinding. *)
Definition vd_push {U} `{Sized U} `{HasDrop U} (v : value U) (self : vecdyn V) (w : world)
  : outcome bool * vecdyn V * world :=
  if vl_type_id v =? vd_element_type_id self then
    match table_free (V := U) (vl_tblk v) w with
    | (Ret _, w1) =>
        let b := match vl_store v with Boxed b => b | Inline => None end in
        let '(o, self', w2) := on_data (vv_push P (vl_bytes v)) self w1 in
        match o with
        | Ret _ =>
            let '(o', w3) := byte_box_drop (ByteBox b (vl_bytes v)) w2 in
            (let! _ := o' in Ret true, self', w3)
        | Panic p =>
            let '(o', w3) := byte_box_drop (ByteBox b (vl_bytes v)) w2 in
            (unwind p o', self', w3)
        | _ => (retype o, self', w2)
        end
    | (o, w1) => (retype o, self, w1)
    end
  else
    let '(o, w') := vl_drop G v w in (let! _ := o in Ret false, self, w').

(** src/vec_dyn.rs:451-471, [push_cloned]. *)
Definition vd_push_cloned `{HasClone V} (r : vref V) (self : vecdyn V) (w : world)
  : outcome bool * vecdyn V * world :=
  if vd_element_type_id self =? vr_type_id r then
    let '(o, self', w') :=
      on_data (vv_resize_with P (vv_len (vc_data self) + 1)
                 (fun uninit w => call_clone_into_raw G (clone_into_raw_fn (vc_vtable self))
                                    (vr_bytes r) uninit w)) self w in
    (let! _ := o in Ret true, self', w')
  else (Ret false, self, w).

(** src/vec_dyn.rs:681-683, the loop of [resize]: [push_as(value.clone())] [n] times. *)
Fixpoint vd_push_clones (n : nat) (t : tyid) (x : payload) (self : vecdyn V) (w : world)
  : outcome unit * vecdyn V * world :=
  match n with
  | O => (Ret tt, self, w)
  | S n' =>
      match clone_val G t x w with
      | (Ret c, w1) =>
          match vc_push_as P G t c self w1 with
          | (Ret _, self', w2) => vd_push_clones n' t x self' w2
          | (o, self', w2) => (retype o, self', w2)
          end
      | (o, w1) => (retype o, self, w1)
      end
  end.

(** src/vec_dyn.rs:675-697, [resize]. *)
Definition vd_resize `{HasDrop V} (t : tyid) (new_len : N) (x : payload) (self : vecdyn V)
    (w : world) : outcome bool * vecdyn V * world :=
  owning G t x
    (if vc_check t self then
       if vd_len self <=? new_len then
         match vc_reserve P (new_len - vd_len self) self w with
         | (Ret _, self1, w1) =>
             let '(o, self2, w2) :=
               vd_push_clones (N.to_nat (new_len - vd_len self)) t x self1 w1 in
             (let! _ := o in Ret true, self2, w2)
         | (o, self1, w1) => (retype o, self1, w1)
         end
       else
         match vv_byte_chunks_mut P (vc_data self) with
         | Ret cs =>
             match drop_chunks (drop_fn (vc_vtable self)) (skipnN new_len cs) w with
             | (Ret _, w1) =>
                 let '(o, self1, w2) := on_data (vv_truncate P new_len) self w1 in
                 (let! _ := o in Ret true, self1, w2)
             | (o, w1) => (retype o, self, w1)
             end
         | o => (retype o, self, w)
         end
     else (Ret false, self, w)).

(** [for v in slice { *v = def.clone(); }]: the slice afterwards. *)
Fixpoint fill_vals (t : tyid) (def : payload) (xs : list payload) (w : world)
  : outcome unit * list payload * world :=
  match xs with
  | [] => (Ret tt, [], w)
  | x :: xs' =>
      match clone_val G t def w with
      | (Ret c, w1) =>
          match assign_val G t x w1 with
          | (Ret _, w2) => let '(o, cs, w3) := fill_vals t def xs' w2 in (o, c :: cs, w3)
          | (o, w2) => (o, c :: xs', w2)
          end
      | (o, w1) => (retype o, xs, w1)
      end
  end.

(** src/vec_dyn.rs:704-710, [fill]. *)
Definition vd_fill (t : tyid) (def : payload) (self : vecdyn V) (w : world)
  : outcome bool * vecdyn V * world :=
  owning G t def
    (match vc_as_slice_as G t self with
     | Ret (Some xs) =>
         let '(o, ys, w') := fill_vals t def xs w in
         (let! _ := o in Ret true,
          VecCopy (vv_splice 0 (encs G t ys) (vc_data self)) (vc_vtable self), w')
     | Ret None => (Ret false, self, w)
     | o => (retype o, self, w)
     end).

(** std: [vec.extend_from_slice(slice)] for a [Clone] type (also [vec.extend(iter.cloned())] for a
    slice iterator): reserve, then clone; clones made before a panic stay in the vector. *)
Definition vec_extend_clones (t : tyid) (xs : list payload) (vec : svec) (w : world)
  : outcome unit * svec * world :=
  match v_reserve (t_size (G t)) (t_align (G t)) (lenN xs) vec w with
  | (Ret _, vec1, w1) =>
      let '(o, cs, w2) := clone_vals t xs w1 in
      (o, SVec (v_blk vec1) (v_len vec1 + lenN cs) (v_cap vec1) (v_bytes vec1 ++ encs G t cs), w2)
  | r => r
  end.

(** src/vec_dyn.rs:716-727, [append_cloned_to_vec]. *)
Definition vd_append_cloned_to_vec (t : tyid) (self : vecdyn V) (vec : svec) (w : world)
  : outcome bool * svec * world :=
  match vc_as_slice_as G t self with
  | Ret (Some xs) =>
      match v_reserve (t_size (G t)) (t_align (G t)) (vd_len self) vec w with
      | (Ret _, vec1, w1) =>
          let '(o, vec2, w2) := vec_extend_clones t xs vec1 w1 in
          (let! _ := o in Ret true, vec2, w2)
      | (o, vec1, w1) => (retype o, vec1, w1)
      end
  | Ret None => (Ret false, vec, w)
  | o => (retype o, vec, w)
  end.

(** The common shape of [clone_into_vec]: a local vector that is filled by [r]. *)
Definition into_new_vec (t : tyid) (r : outcome bool * svec * world)
  : outcome (option svec) * world :=
  match r with
  | (Ret true, vec, w') => (Ret (Some vec), w')
  | (Ret false, vec, w') =>
      let '(o, w'') := vec_drop G t vec w' in (let! _ := o in Ret None, w'')
  | (Panic p, vec, w') => let '(o, w'') := vec_drop G t vec w' in (unwind p o, w'')
  | (o, _, w') => (retype o, w')
  end.

(** src/vec_dyn.rs:730-739, [clone_into_vec]. *)
Definition vd_clone_into_vec (t : tyid) (self : vecdyn V) (w : world)
  : outcome (option svec) * world :=
  into_new_vec t (vd_append_cloned_to_vec t self svec_nil w).

(** ** slice.rs *)

(** src/slice.rs:21-26 and 336-342: [Slice] and [SliceMut] contain a [SliceCopy] and a
    [SliceCopyMut]; their methods not listed here call the method of the same name of those. *)

(** src/vec_dyn.rs:553-568, [as_slice], [as_mut_slice]. *)
Definition vd_as_slice (self : vecdyn V) : outcome (slicecopy V) := vc_as_slice P self.

(** src/slice.rs:205-215, [iter], and 218-227, [into_iter] (for [SliceMut] 563-577, 580-589). *)
Definition ds_iter (s : slicecopy V) : outcome (list (vref V)) :=
  let! cs := chunks_exact (num_bytes (sl_elem s)) (sl_data s) in
  Ret (map (fun bs => ValRef bs (e_type_id (sl_elem s)) (e_alignment (sl_elem s))
                             (VRef (sl_vtable s))) cs).

(** src/slice.rs:30-36 and 346-353, [PartialEq]. *)
Definition ds_eq `{HasPartialEq V} (a b : slicecopy V) : outcome bool :=
  let! x := ds_iter a in
  let! y := ds_iter b in
  all_eq x y.

(** src/slice.rs:38-42 and 355-359, [Debug]. *)
Definition ds_fmt `{HasDebug V} (a : slicecopy V) : outcome string :=
  let! rs := ds_iter a in
  let! ss := fmt_all rs in
  Ret (debug_list ss).

(** std: [dst.clone_from_slice(src)]: lengths must agree; [clone_from] one after the other. *)
Fixpoint clone_from_vals (t : tyid) (dst src : list payload) (w : world)
  : outcome unit * list payload * world :=
  match dst, src with
  | d :: dst', s :: src' =>
      match clone_val G t s w with
      | (Ret c, w1) =>
          match assign_val G t d w1 with
          | (Ret _, w2) => let '(o, cs, w3) := clone_from_vals t dst' src' w2 in (o, c :: cs, w3)
          | (o, w2) => (o, c :: dst', w2)
          end
      | (o, w1) => (retype o, dst, w1)
      end
  | _, _ => (Ret tt, dst, w)
  end.

(** src/slice.rs:686-691, [SliceMut::clone_from_slice]: new contents of the slice. *)
Definition dsm_clone_from_slice (t : tyid) (src : list payload) (s : slicecopy V) (w : world)
  : outcome bool * slicecopy V * world :=
  match sl_as_slice P G t s with
  | Ret (Some xs) =>
      if lenN xs =? lenN src then
        let '(o, ys, w') := clone_from_vals t xs src w in
        (let! _ := o in Ret true, SliceCopy (encs G t ys) (sl_elem s) (sl_vtable s), w')
      else (Panic PAssert, s, w)
  | Ret None => (Ret false, s, w)
  | o => (retype o, s, w)
  end.

(** src/slice.rs:295-303 (and 696-702), [append_clone_to_vec]. *)
Definition ds_append_clone_to_vec (t : tyid) (s : slicecopy V) (vec : svec) (w : world)
  : outcome bool * svec * world :=
  match sl_as_slice P G t s with
  | Ret (Some xs) =>
      let '(o, vec', w') := vec_extend_clones t xs vec w in (let! _ := o in Ret true, vec', w')
  | Ret None => (Ret false, vec, w)
  | o => (retype o, vec, w)
  end.

(** src/slice.rs:306-315 (and 705-714), [clone_into_vec]. *)
Definition ds_clone_into_vec (t : tyid) (s : slicecopy V) (w : world)
  : outcome (option svec) * world :=
  into_new_vec t (ds_append_clone_to_vec t s svec_nil w).

End VecDynOps.

(** src/vec_dyn.rs:241-254, [upcast]. *)
Definition vd_upcast {V U} (from : V -> U) (self : vecdyn V) : vecdyn U := vc_upcast from self.
