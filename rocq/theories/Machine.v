(** * Machine: programs over any number of [VecCopy] buffers.

    A program is a list of [step]s (see Spec.v); each runs one public function of
    /repo/src/vec_copy.rs or /repo/src/slice_copy.rs on real buffers.  A panicking call is caught
    ([catch_unwind]) and the program goes on with whatever state the panic left. *)

From Verif Require Export SliceCopy Spec.

Section Machine.
Context {V : Type} (P : profile) (G : tenv).
(** [V::build_vtable()] for each element type. *)
Context (build : tyid -> V).

(** A value reference as user code makes it: [CopyValueRef::new(&v)]. *)
Definition mk_ref (t : tyid) (v : payload) : copy_ref V := copy_ref_new G t v (build t).

Fixpoint downcast_all (t : tyid) (rs : list (copy_ref V)) : outcome (option (list payload)) :=
  match rs with
  | [] => Ret (Some [])
  | r :: rs' =>
      let! o := cr_downcast G t r in
      match o with
      | None => Ret None
      | Some v =>
          let! o' := downcast_all t rs' in
          match o' with
          | None => Ret None
          | Some vs => Ret (Some (v :: vs))
          end
      end
  end.

(** Adapt the shapes of results. *)
Definition pure (o : outcome obs) (b : veccopy V) (w : world) : outcome obs * veccopy V * world :=
  (o, b, w).
Definition noworld {A} (k : A -> obs) (r : outcome A * veccopy V) (w : world)
  : outcome obs * veccopy V * world :=
  let '(o, b) := r in (let! a := o in Ret (k a), b, w).
Definition full {A} (k : A -> obs) (r : outcome A * veccopy V * world)
  : outcome obs * veccopy V * world :=
  let '(o, b, w) := r in (let! a := o in Ret (k a), b, w).
Definition unit_obs (_ : unit) : obs := OUnit.

Definition run_call (c : call) (b : veccopy V) (w : world) : outcome obs * veccopy V * world :=
  match c with
  | SLen => pure (Ret (ONum (vc_len b))) b w
  | SIsEmpty => pure (Ret (OBool (vc_is_empty b))) b w
  | STypeId => pure (Ret (ONum (vc_element_type_id b))) b w
  | SCheck t => pure (Ret (OBool (vc_check t b))) b w
  | SReserve n => full unit_obs (vc_reserve P n b w)
  | SClear => full unit_obs (vc_clear P b w)
  | SPushAs t v => full OBool (vc_push_as P G t v b w)
  | SResize t n v => full OBool (vc_resize P G t n v b w)
  | SFill t v => noworld OBool (vc_fill G t v b) w
  | SUpdate t f => noworld OBool (vc_as_mut_slice_as G t f b) w
  | SCopyFromSlice t vs => noworld OBool (vc_copy_from_slice P G t vs b) w
  | SReadAs t => pure (let! o := vc_as_slice_as G t b in Ret (OVals o)) b w
  | SGetAs t i => pure (let! o := vc_get_as G t i b in Ret (OVal o)) b w
  | SSetAs t i v => noworld OBool (vc_set_as G t i v b) w
  | SCopyIntoVec t =>
      (* the resulting Vec is read and dropped *)
      match vc_copy_into_vec G t b w with
      | (Ret (Some vec), w1) =>
          match vec_elems G t vec with
          | Ret vs =>
              let '(o, w2) := vec_drop G t vec w1 in (let! _ := o in Ret (OVals (Some vs)), b, w2)
          | o => (retype o, b, w1)
          end
      | (Ret None, w1) => (Ret (OVals None), b, w1)
      | (o, w1) => (retype o, b, w1)
      end
  | SRotL k => full unit_obs (vc_rotate_left P k b w)
  | SRotR k => full unit_obs (vc_rotate_right P k b w)
  | SGetRef i t =>
      pure (let! r := vc_get_ref P i b in let! o := cr_downcast G t r in Ret (OVal o)) b w
  | SGetMutCopy i t v => noworld OBool (vc_get_mut_copy P i (mk_ref t v) b) w
  | SIter t =>
      pure (let! rs := vc_iter P b in let! o := downcast_all t rs in Ret (OVals o)) b w
  | SIterMutCopy t v => noworld unit_obs (vc_iter_mut_copy P (mk_ref t v) b) w
  | SPush t v => full OBool (vc_push P (mk_ref t v) b w)
  | SExtend hint vals =>
      full unit_obs (vc_extend P hint (map (fun p => mk_ref (fst p) (snd p)) vals) b w)
  | SSwap i j => noworld unit_obs (vc_with_mut_slice P (slm_swap P i j) b) w
  | SSliceRotL k => noworld unit_obs (vc_with_mut_slice P (slm_rotate_left P k) b) w
  | SSliceRotR k => noworld unit_obs (vc_with_mut_slice P (slm_rotate_right P k) b) w
  | SSubslice a e t =>
      pure (let! s := vc_as_slice P b in
            let! p := sl_subslice P (RRange a e) s in
            let! o := sl_as_slice P G t (snd p) in Ret (OVals o)) b w
  | SSplitAt k t =>
      pure (let! s := vc_as_slice P b in
            let! p := sl_split_at P k s in
            let! o1 := sl_as_slice P G t (fst (fst p)) in
            let! o2 := sl_as_slice P G t (snd p) in Ret (OVals2 o1 o2)) b w
  end.

Definition run_ctor (c : ctor) (w : world) : outcome (veccopy V) * world :=
  match c with
  | KFromVec t cap vs =>
      match vec_make G t cap vs w with
      | (Ret v, w') => vc_from_vec G t v (build t) w'
      | (o, w') => (retype o, w')
      end
  | KWithType t => vc_with_type G t (build t) w
  | KWithCapacity t n => vc_with_capacity G t n (build t) w
  | KWithSize t n v => vc_with_size G t n v (build t) w
  | KFromSlice t vs => vc_from_slice G t vs (build t) w
  | KWithTypeFromRef t v => vc_with_type_from P (meta_of_copy_ref (mk_ref t v)) w
  | KFromIter hint vals =>
      vc_from_iter P hint (map (fun p => mk_ref (fst p) (snd p)) vals) w
  end.

(** All buffers and the allocator. *)
Record cstate : Type := CState { c_store : list (option (veccopy V)); c_world : world }.

Definition c_init : cstate := CState [] w0.

Definition new_buf (r : outcome (veccopy V) * world) (st : cstate) : outcome report * cstate :=
  match r with
  | (Ret b, w') => (Ret (RObs OUnit), CState (c_store st ++ [Some b]) w')
  | (o, w') => (retype o, CState (c_store st) w')
  end.

Definition get (st : cstate) (h : nat) : option (veccopy V) :=
  match nth_error (c_store st) h with Some (Some b) => Some b | _ => None end.

Definition run_step (s : step) (st : cstate) : outcome report * cstate :=
  match s with
  | MNew c => new_buf (run_ctor c (c_world st)) st
  | MWithTypeFrom h =>
      match get st h with
      | Some b => new_buf (vc_with_type_from P (meta_of_vec b) (c_world st)) st
      | None => (Ret RInvalid, st)
      end
  | MClone h =>
      match get st h with
      | Some b => new_buf (vc_clone P b (c_world st)) st
      | None => (Ret RInvalid, st)
      end
  | MDrop h =>
      match get st h with
      | Some b =>
          let '(o, w') := vc_drop P b (c_world st) in
          (let! _ := o in Ret (RObs OUnit), CState (list_set (c_store st) h None) w')
      | None => (Ret RInvalid, st)
      end
  | MIntoVec h t =>
      match get st h with
      | Some b =>
          let st' w' := CState (list_set (c_store st) h None) w' in
          match vc_into_vec P G t b (c_world st) with
          | (Ret (Some vec), w1) =>
              match vec_elems G t vec with
              | Ret vs =>
                  let '(o, w2) := vec_drop G t vec w1 in
                  (let! _ := o in Ret (RObs (OVals (Some vs))), st' w2)
              | o => (retype o, st' w1)
              end
          | (Ret None, w1) => (Ret (RObs (OVals None)), st' w1)
          | (o, w1) => (retype o, st' w1)
          end
      | None => (Ret RInvalid, st)
      end
  | MAppend h h' =>
      match get st h, get st h' with
      | Some b, Some b' =>
          if (h =? h')%nat then (Ret RInvalid, st)
          else
            let '(o, b1, b1', w') := vc_append P b b' (c_world st) in
            (let! a := o in Ret (RObs (OBool a)),
             CState (list_set (list_set (c_store st) h (Some b1)) h' (Some b1')) w')
      | _, _ => (Ret RInvalid, st)
      end
  | MCall h c =>
      match get st h with
      | Some b =>
          let '(o, b', w') := run_call c b (c_world st) in
          (let! a := o in Ret (RObs a), CState (list_set (c_store st) h (Some b')) w')
      | None => (Ret RInvalid, st)
      end
  end.

(** Run a program, catching panics; undefined behaviour and aborts end it. *)
Fixpoint run (prog : list step) (st : cstate) : list (outcome report) * cstate :=
  match prog with
  | [] => ([], st)
  | s :: prog' =>
      match run_step s st with
      | (Ret r, st') => let '(rs, st'') := run prog' st' in (Ret r :: rs, st'')
      | (Panic p, st') => let '(rs, st'') := run prog' st' in (Panic p :: rs, st'')
      | (o, st') => ([o], st')
      end
  end.

(** ** Conditions on calls *)

(** The types a program may use at the calls that require [CopyElem]; a compiler check. *)
Definition ctor_typed (c : ctor) : Prop :=
  match c with
  | KFromVec t _ _ | KWithType t | KWithCapacity t _ | KWithSize t _ _ | KFromSlice t _
  | KWithTypeFromRef t _ => t_copy (G t) = true
  | KFromIter _ vals => Forall (fun p => t_copy (G (fst p)) = true) vals
  end.
Definition call_typed (c : call) : Prop :=
  match c with
  | SResize t _ _ | SFill t _ | SCopyFromSlice t _ | SGetAs t _ | SCopyIntoVec t
  | SGetMutCopy _ t _ | SIterMutCopy t _ | SPush t _ => t_copy (G t) = true
  | SExtend _ vals => Forall (fun p => t_copy (G (fst p)) = true) vals
  | _ => True
  end.
Definition step_typed (s : step) : Prop :=
  match s with
  | MNew c => ctor_typed c
  | MCall _ c => call_typed c
  | _ => True
  end.

(** [n * k] fits in usize, or the build checks for overflow. *)
Definition fits (n k : N) : Prop := n * k <= usize_max \/ overflow_checks P = true.

(** Arguments for which the bounds checks of the code are effective in build profile [P]:
    indices and offsets whose byte position is representable (or the build checks overflow), an
    in-range index for [get_ref]/[get_mut] (or debug assertions are on), and no reference to a
    zero-sized value given to [push] on a buffer of zero-sized elements (what a panic leaves). *)
Definition call_in_range (c : call) (b : veccopy V) : Prop :=
  match c with
  | SRotL k | SRotR k | SSliceRotL k | SSliceRotR k | SSplitAt k _ => fits k (vc_element_size b)
  | SGetRef i _ | SGetMutCopy i _ _ => i < vc_len b \/ debug_assertions P = true
  | SSwap i j => fits (i + 1) (vc_element_size b) /\ fits (j + 1) (vc_element_size b)
  | SSubslice a e _ => fits a (vc_element_size b) /\ fits e (vc_element_size b)
  | SPush t _ => t_size (G t) <> 0 \/ vc_element_size b <> 0
  | _ => True
  end.
Definition step_in_range (s : step) (st : cstate) : Prop :=
  match s with
  | MCall h c => match get st h with Some b => call_in_range c b | None => True end
  | _ => True
  end.

(** Every step of the program, from the state it is run in, is in range. *)
Fixpoint in_range (prog : list step) (st : cstate) : Prop :=
  match prog with
  | [] => True
  | s :: prog' => step_in_range s st /\ in_range prog' (snd (run_step s st))
  end.

(** The blocks owned by live buffers. *)
Definition buf_block (b : veccopy V) : list block :=
  match vv_blk (vc_data b) with
  | Some i =>
      let sz := vv_cap (vc_data b) * num_bytes (vv_elem (vc_data b)) in
      if sz =? 0 then [] else [(i, (sz, e_alignment (vv_elem (vc_data b))))]
  | None => []
  end.
Definition owned_blocks (st : cstate) : list block :=
  flat_map (fun s => match s with Some b => buf_block b | None => [] end) (c_store st).

End Machine.
