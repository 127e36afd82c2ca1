(** * DynMachine: programs over any number of [VecDyn]s and owned values.

    A program is a list of [dstep]s (see DynSpec.v); each runs public functions of
    /repo/src/vec_dyn.rs, /repo/src/slice.rs and /repo/src/value.rs on real objects.  A panicking
    call is caught ([catch_unwind]) and the program goes on with whatever state the panic left. *)

From Verif Require Export VecDyn DynSpec.
From Verif Require Import Machine.

(** A table type whose [build_vtable::<T>()] holds the functions of [T].  For the tables written by
    the derive macro this is proved in PropertiesDerive.v (c46_generated_table). *)
Class Lawful (V : Type) `{HasDrop V} `{HasClone V} `{HasPartialEq V} `{HasHash V} `{HasDebug V}
    `{VTable V} : Prop := {
  law_drop : forall t, drop_fn (build_vtable t) = DropOf t;
  law_clone : forall t, clone_fn (build_vtable t) = CloneOf t;
  law_clone_from : forall t, clone_from_fn (build_vtable t) = CloneFromOf t;
  law_clone_raw : forall t, clone_into_raw_fn (build_vtable t) = CloneRawOf t;
  law_eq : forall t, eq_fn (build_vtable t) = EqOf t;
  law_hash : forall t, hash_fn (build_vtable t) = HashOf t;
  law_fmt : forall t, fmt_fn (build_vtable t) = FmtOf t
}.

(** Conditions on the types a program uses, beyond the layout rules: the clone of a value of a
    zero-sized type is a value of that type. *)
Definition clones_ok (G : tenv) : Prop :=
  forall t h v c, t_clone (G t) h v = Some c -> is_value G t c.

(** No destructor panics. *)
Definition drops_quietly (G : tenv) : Prop := forall t h v, t_drop_panics (G t) h v = false.

Section DynMachine.
Context {V : Type} `{HasDrop V} `{HasClone V} `{HasPartialEq V} `{HasHash V} `{HasDebug V}
        `{VTable V} `{Sized V} (P : profile) (G : tenv).

Fixpoint vr_downcast_all (t : tyid) (rs : list (vref V)) : outcome (option (list payload)) :=
  match rs with
  | [] => Ret (Some [])
  | r :: rs' =>
      let! o := vr_downcast G t r in
      match o with
      | None => Ret None
      | Some v =>
          let! o' := vr_downcast_all t rs' in
          match o' with
          | None => Ret None
          | Some vs => Ret (Some (v :: vs))
          end
      end
  end.

(** Run a mutating slice method that can clone and drop on [self.as_mut_slice()]. *)
Definition vd_with_mut_slice {A} (f : slicecopy V -> world -> outcome A * slicecopy V * world)
    (self : vecdyn V) (w : world) : outcome A * vecdyn V * world :=
  match vd_as_slice P self with
  | Ret s =>
      let '(o, s', w') := f s w in
      (o, VecCopy (vv_splice 0 (sl_data s') (vc_data self)) (vc_vtable self), w')
  | o => (retype o, self, w)
  end.

Definition dfull {A} (k : A -> dobs) (r : outcome A * vecdyn V * world)
  : outcome dobs * vecdyn V * world :=
  let '(o, b, w) := r in (let! a := o in Ret (k a), b, w).
Definition dunit (_ : unit) : dobs := AUnit.

Definition run_dcall (c : dcall) (b : vecdyn V) (w : world) : outcome dobs * vecdyn V * world :=
  match c with
  | VLen => (Ret (ANum (vd_len b)), b, w)
  | VIsEmpty => (Ret (ABool (vd_is_empty b)), b, w)
  | VTypeId => (Ret (ANum (vd_element_type_id b)), b, w)
  | VCheck t => (Ret (ABool (vd_check t b)), b, w)
  | VReadAs t => (let! o := vd_as_slice_as G t b in Ret (AVals o), b, w)
  | VGetAs t i => (let! o := vd_get_ref_as G t i b in Ret (AVal o), b, w)
  | VSetAs t i v => dfull ABool (vd_set_as G t i v b w)
  | VGet i t => (let! r := vd_get P i b in let! o := vr_downcast G t r in Ret (AVal o), b, w)
  | VIter t => (let! rs := vd_iter P b in let! o := vr_downcast_all t rs in Ret (AVals o), b, w)
  | VPushAs t v => dfull ABool (vd_push_as P G t v b w)
  | VResize t n v => dfull ABool (vd_resize P G t n v b w)
  | VFill t v => dfull ABool (vd_fill G t v b w)
  | VClear => dfull dunit (vd_clear P G b w)
  | VRotL k => dfull dunit (vd_rotate_left P k b w)
  | VRotR k => dfull dunit (vd_rotate_right P k b w)
  | VSwap i j => dfull dunit (vc_with_mut_slice P (slm_swap P i j) b, w)
  | VCloneFromSlice t vs =>
      dfull ABool (vd_with_mut_slice (dsm_clone_from_slice P G t vs) b w)
  | VCloneIntoVec t =>
      match vd_clone_into_vec G t b w with
      | (Ret (Some vec), w1) =>
          match vec_elems G t vec with
          | Ret vs =>
              let '(o, w2) := vec_drop G t vec w1 in (let! _ := o in Ret (AVals (Some vs)), b, w2)
          | o => (retype o, b, w1)
          end
      | (Ret None, w1) => (Ret (AVals None), b, w1)
      | (o, w1) => (retype o, b, w1)
      end
  | VHash => (let! h := vd_hash P G b in Ret (AHash h), b, w)
  | VFmt => (let! s := vd_fmt P G b in Ret (AStr s), b, w)
  end.

(** All objects and the world. *)
Inductive obj : Type := OVec (b : vecdyn V) | OVal (v : value V).
Record dstate : Type := DState { d_objs : list (option obj); d_world : world }.
Definition d_init : dstate := DState [] w0.

Definition dget (st : dstate) (h : nat) : option obj :=
  match nth_error (d_objs st) h with Some (Some x) => Some x | _ => None end.
Definition dset (st : dstate) (h : nat) (x : option obj) (w : world) : dstate :=
  DState (list_set (d_objs st) h x) w.
Definition dworld (st : dstate) (w : world) : dstate := DState (d_objs st) w.

(** A borrowed value; [inl]: not a program. *)
Definition get_source (st : dstate) (s : source) : unit + outcome (vref V) :=
  match s with
  | FromUser t v => inr (Ret (vr_new G t v))
  | FromVec h i =>
      match dget st h with
      | Some (OVec b) => inr (vd_get P i b)
      | _ => inl tt
      end
  | FromVal k =>
      match dget st k with
      | Some (OVal v) => inr (Ret (vl_as_ref v))
      | _ => inl tt
      end
  end.

Definition dinvalid (st : dstate) : outcome dreport * dstate := (Ret DInvalid, st).
Definition oreport (o : outcome dobs) : outcome dreport := let! a := o in Ret (DObs a).

Definition new_obj {A} (k : A -> obj) (r : outcome A * world) (st : dstate)
  : outcome dreport * dstate :=
  match r with
  | (Ret b, w') => (Ret (DObs AUnit), DState (d_objs st ++ [Some (k b)]) w')
  | (o, w') => (retype o, dworld st w')
  end.

Definition run_dstep (s : dstep) (st : dstate) : outcome dreport * dstate :=
  let w := d_world st in
  match s with
  | DFromVec t cap vs =>
      new_obj OVec
        (match vec_make G t cap vs w with
         | (Ret v, w') => vd_from_vec G t v w'
         | (o, w') => (retype o, w')
         end) st
  | DWithType t => new_obj OVec (vd_with_type G t w) st
  | DWithCapacity t n => new_obj OVec (vd_with_capacity G t n w) st
  | DWithSize t n v => new_obj OVec (vd_with_size G t n v w) st
  | DFromSlice t vs => new_obj OVec (vd_from_slice G t vs w) st
  | DWithTypeFrom h =>
      match dget st h with
      | Some (OVec b) => new_obj OVec (vd_with_type_from P (meta_of_vecdyn b) w) st
      | _ => dinvalid st
      end
  | DWithTypeFromRef src =>
      match get_source st src with
      | inr (Ret r) => new_obj OVec (vd_with_type_from P (meta_of_vref r) w) st
      | inr o => (retype o, st)
      | inl _ => dinvalid st
      end
  | DClone h =>
      match dget st h with
      | Some (OVec b) => new_obj OVec (vd_clone P G b w) st
      | _ => dinvalid st
      end
  | DDrop h =>
      match dget st h with
      | Some (OVec b) =>
          let '(o, w') := vd_drop P G b w in
          (oreport (let! _ := o in Ret AUnit), dset st h None w')
      | _ => dinvalid st
      end
  | DIntoVec h t =>
      match dget st h with
      | Some (OVec b) =>
          match vd_into_vec P G t b w with
          | (Ret (Some vec), w1) =>
              (* the elements are moved out by the user, then the block is freed *)
              match vec_elems G t vec with
              | Ret vs =>
                  let '(o, w2) := v_drop_nodrop (t_size (G t)) (t_align (G t)) vec w1 in
                  (oreport (let! _ := o in Ret (AVals (Some vs))), dset st h None w2)
              | o => (retype o, dset st h None w1)
              end
          | (Ret None, w1) => (Ret (DObs (AVals None)), dset st h None w1)
          | (o, w1) => (retype o, dset st h None w1)
          end
      | _ => dinvalid st
      end
  | DAppend h h' =>
      match dget st h, dget st h' with
      | Some (OVec b), Some (OVec b') =>
          if (h =? h')%nat then dinvalid st
          else
            let '(o, b1, b1', w') := vd_append P b b' w in
            (oreport (let! a := o in Ret (ABool a)),
             dset (dset st h (Some (OVec b1)) w') h' (Some (OVec b1')) w')
      | _, _ => dinvalid st
      end
  | DSwapElems h i h' j =>
      match dget st h, dget st h' with
      | Some (OVec b), Some (OVec b') =>
          if (h =? h')%nat then dinvalid st
          else
            let '(o, b1, b1') := vd_swap P i b j b' in
            (oreport (let! _ := o in Ret AUnit),
             dset (dset st h (Some (OVec b1)) w) h' (Some (OVec b1')) w)
      | _, _ => dinvalid st
      end
  | DEq h h' =>
      match dget st h, dget st h' with
      | Some (OVec b), Some (OVec b') =>
          (oreport (let! e := vd_eq P G b b' in Ret (ABool e)), st)
      | _, _ => dinvalid st
      end
  | DPush h k =>
      match dget st h, dget st k with
      | Some (OVec b), Some (OVal v) =>
          match vl_store v with
          | Boxed _ =>
              let '(o, b', w') := vd_push P G v b w in
              (oreport (let! a := o in Ret (ABool a)),
               dset (dset st h (Some (OVec b')) w') k None w')
          | Inline => dinvalid st
          end
      | _, _ => dinvalid st
      end
  | DPushCloned h src =>
      if uses h src then dinvalid st
      else
        match dget st h, get_source st src with
        | Some (OVec b), inr (Ret r) =>
            let '(o, b', w') := vd_push_cloned P G r b w in
            (oreport (let! a := o in Ret (ABool a)), dset st h (Some (OVec b')) w')
        | Some (OVec b), inr o => (retype o, st)
        | _, _ => dinvalid st
        end
  | DAssign h i k =>
      match dget st h, dget st k with
      | Some (OVec b), Some (OVal v) =>
          let '(o, b', w') := vd_assign P G i v b w in
          (oreport (let! _ := o in Ret AUnit), dset (dset st h (Some (OVec b')) w') k None w')
      | _, _ => dinvalid st
      end
  | DCloneFrom h i src =>
      if uses h src then dinvalid st
      else
        match dget st h, get_source st src with
        | Some (OVec b), inr (Ret r) =>
            let '(o, b', w') := vd_clone_from_other P G i r b w in
            (oreport (let! a := o in
                      Ret (ABool (match a with inl _ => true | inr _ => false end))),
             dset st h (Some (OVec b')) w')
        | Some (OVec b), inr o => (retype o, st)
        | _, _ => dinvalid st
        end
  | DCloneFromAll h src =>
      if uses h src then dinvalid st
      else
        match dget st h, get_source st src with
        | Some (OVec b), inr (Ret r) =>
            let '(o, b', w') := vd_iter_mut_clone P G r b w in
            (oreport (let! _ := o in Ret AUnit), dset st h (Some (OVec b')) w')
        | Some (OVec b), inr o => (retype o, st)
        | _, _ => dinvalid st
        end
  | DCall h c =>
      match dget st h with
      | Some (OVec b) =>
          let '(o, b', w') := run_dcall c b w in (oreport o, dset st h (Some (OVec b')) w')
      | _ => dinvalid st
      end
  | OBox t v => let '(x, w') := bv_new G t v w in new_obj OVal (Ret x, w') st
  | OSmall t v =>
      match sv_try_new G t v w with
      | (Some x, w') => (Ret (DObs (ABool true)), DState (d_objs st ++ [Some (OVal x)]) w')
      | (None, w') => (Ret (DObs (ABool false)), dworld st w')
      end
  | OCloneBox src =>
      match get_source st src with
      | inr (Ret r) => new_obj OVal (vr_clone_value G r w) st
      | inr o => (retype o, st)
      | inl _ => dinvalid st
      end
  | OCloneSmall src =>
      match get_source st src with
      | inr (Ret r) => new_obj OVal (vr_clone_small_value G r w) st
      | inr o => (retype o, st)
      | inl _ => dinvalid st
      end
  | OClone k =>
      match dget st k with
      | Some (OVal v) => new_obj OVal (vl_clone G v w) st
      | _ => dinvalid st
      end
  | ODrop k =>
      match dget st k with
      | Some (OVal v) =>
          let '(o, w') := vl_drop G v w in
          (oreport (let! _ := o in Ret AUnit), dset st k None w')
      | _ => dinvalid st
      end
  | ODowncast k t =>
      match dget st k with
      | Some (OVal v) =>
          match vl_store v with
          | Boxed _ =>
              match bv_downcast G t v w with
              | (Ret (Some bx), w1) =>
                  (* the value is moved out by the user, then the box is freed *)
                  let '(o, w2) := dealloc (tb_blk bx) (t_size (G t)) (t_align (G t)) w1 in
                  (oreport (let! _ := o in Ret (AVal (Some (tb_val bx)))), dset st k None w2)
              | (Ret None, w1) => (Ret (DObs (AVal None)), dset st k None w1)
              | (o, w1) => (retype o, dset st k None w1)
              end
          | Inline =>
              let '(o, w1) := sv_downcast G t v w in
              (oreport (let! x := o in Ret (AVal x)), dset st k None w1)
          end
      | _ => dinvalid st
      end
  | OSwapVals k k' =>
      match dget st k, dget st k' with
      | Some (OVal v), Some (OVal v') =>
          if (k =? k')%nat then dinvalid st
          else
            let '(o, m, m') := vm_swap (vl_as_mut v) (vl_as_mut v') in
            (oreport (let! _ := o in Ret AUnit),
             dset (dset st k (Some (OVal (vl_with_bytes v (vm_bytes m)))) w)
                  k' (Some (OVal (vl_with_bytes v' (vm_bytes m')))) w)
      | _, _ => dinvalid st
      end
  | OAssign k k' =>
      match dget st k, dget st k' with
      | Some (OVal v), Some (OVal v') =>
          if (k =? k')%nat then dinvalid st
          else
            let '(o, m, w') := vm_assign G (vl_as_mut v) v' w in
            (oreport (let! _ := o in Ret AUnit),
             dset (dset st k (Some (OVal (vl_with_bytes v (vm_bytes m)))) w') k' None w')
      | _, _ => dinvalid st
      end
  | OCloneFrom k src =>
      if uses k src then dinvalid st
      else
        match dget st k, get_source st src with
        | Some (OVal v), inr (Ret r) =>
            let '(o, m, w') := vm_clone_from_other G (vl_as_mut v) r w in
            (oreport (let! a := o in
                      Ret (ABool (match a with inl _ => true | inr _ => false end))),
             dset st k (Some (OVal (vl_with_bytes v (vm_bytes m)))) w')
        | Some (OVal v), inr o => (retype o, st)
        | _, _ => dinvalid st
        end
  | OEq k k' =>
      match dget st k, dget st k' with
      | Some (OVal v), Some (OVal v') =>
          match vl_store v, vl_store v' with
          | Boxed _, Boxed _ | Inline, Inline =>
              (oreport (let! e := vl_eq G v v' in Ret (ABool e)), st)
          | _, _ => dinvalid st
          end
      | _, _ => dinvalid st
      end
  | OHashVal k =>
      match dget st k with
      | Some (OVal v) => (oreport (let! h := vl_hash G v in Ret (AHash h)), st)
      | _ => dinvalid st
      end
  | OFmtVal k =>
      match dget st k with
      | Some (OVal v) => (oreport (let! s := vl_fmt G v in Ret (AStr s)), st)
      | _ => dinvalid st
      end
  end.

(** Run a program, catching panics; undefined behaviour and aborts end it. *)
Fixpoint drun (prog : list dstep) (st : dstate) : list (outcome dreport) * dstate :=
  match prog with
  | [] => ([], st)
  | s :: prog' =>
      match run_dstep s st with
      | (Ret r, st') => let '(rs, st'') := drun prog' st' in (Ret r :: rs, st'')
      | (Panic p, st') => let '(rs, st'') := drun prog' st' in (Panic p :: rs, st'')
      | (o, st') => ([o], st')
      end
  end.

(** ** Conditions on steps *)

(** The arguments are values of their types (a zero-sized type has one value only). *)
Definition dcall_typed (c : dcall) : Prop :=
  match c with
  | VSetAs t _ v | VPushAs t v | VResize t _ v | VFill t v => is_value G t v
  | VCloneFromSlice t vs => Forall (is_value G t) vs
  | _ => True
  end.
Definition source_typed (s : source) : Prop :=
  match s with FromUser t v => is_value G t v | _ => True end.
Definition dstep_typed (s : dstep) : Prop :=
  match s with
  | DFromVec t _ vs | DFromSlice t vs => Forall (is_value G t) vs
  | DWithSize t _ v | OBox t v | OSmall t v => is_value G t v
  | DCall _ c => dcall_typed c
  | DWithTypeFromRef s | DPushCloned _ s | DCloneFrom _ _ s | DCloneFromAll _ s | OCloneBox s
  | OCloneSmall s | OCloneFrom _ s => source_typed s
  | _ => True
  end.

(** Indices and offsets whose byte position is representable, or the build checks overflow; and a
    boxed value given to [push] has alignment 1 (otherwise its box is freed with the wrong layout)
    and is not pushed to what a panic left behind. *)
Definition dcall_in_range (c : dcall) (b : vecdyn V) : Prop :=
  match c with
  | VRotL k | VRotR k => fits P k (vd_element_size b)
  | VGet i _ => fits P (i + 1) (vd_element_size b)
  | VSwap i j => fits P (i + 1) (vd_element_size b) /\ fits P (j + 1) (vd_element_size b)
  | _ => True
  end.
Definition index_in_range (st : dstate) (h : nat) (i : N) : Prop :=
  match dget st h with
  | Some (OVec b) => fits P (i + 1) (vd_element_size b)
  | _ => True
  end.
Definition source_in_range (st : dstate) (s : source) : Prop :=
  match s with FromVec h i => index_in_range st h i | _ => True end.
Definition dstep_in_range (s : dstep) (st : dstate) : Prop :=
  match s with
  | DSwapElems h i h' j => index_in_range st h i /\ index_in_range st h' j
  | DPush h k =>
      match dget st h, dget st k with
      | Some (OVec b), Some (OVal v) =>
          vl_type_id v = vd_element_type_id b -> vl_alignment v = 1 /\ vd_element_size b <> 0
      | _, _ => True
      end
  | DAssign h i _ => index_in_range st h i
  | DCloneFrom h i s => index_in_range st h i /\ source_in_range st s
  | DWithTypeFromRef s | DPushCloned _ s | DCloneFromAll _ s | OCloneBox s | OCloneSmall s
  | OCloneFrom _ s => source_in_range st s
  | DCall h c => match dget st h with Some (OVec b) => dcall_in_range c b | _ => True end
  | _ => True
  end.

Fixpoint dyn_in_range (prog : list dstep) (st : dstate) : Prop :=
  match prog with
  | [] => True
  | s :: prog' => dstep_in_range s st /\ dyn_in_range prog' (snd (run_dstep s st))
  end.

(** ** What the objects hold *)

(** The values with a destructor that a user can read out of an object. *)
Definition obj_vals (x : obj) : list tval :=
  match x with
  | OVec b =>
      match vd_as_slice_as G (vd_element_type_id b) b with
      | Ret (Some xs) => owned_vals G (vd_element_type_id b) xs
      | _ => []
      end
  | OVal v =>
      match vr_downcast G (vl_type_id v) (vl_as_ref v) with
      | Ret (Some x) => owned_vals G (vl_type_id v) [x]
      | _ => []
      end
  end.
Definition stored (st : dstate) : list tval :=
  flat_map (fun s => match s with Some x => obj_vals x | None => [] end) (d_objs st).

(** The heap blocks that belong to an object. *)
Definition obj_blocks (x : obj) : list block :=
  match x with
  | OVec b => buf_block b
  | OVal v =>
      match vl_store v with
      | Boxed (Some i) =>
          let n := lenN (vl_bytes v) in if n =? 0 then [] else [(i, (n, vl_alignment v))]
      | _ => []
      end ++
      match vl_tblk v with
      | Some i =>
          if fst (table_layout (V := V)) =? 0 then [] else [(i, table_layout (V := V))]
      | None => []
      end
  end.
Definition obj_blocks_of (st : dstate) : list block :=
  flat_map (fun s => match s with Some x => obj_blocks x | None => [] end) (d_objs st).

(** What the program gave to and got from the library. *)
Fixpoint given (prog : list dstep) (rs : list (outcome dreport)) : list tval :=
  match prog, rs with
  | _ :: prog', Ret DInvalid :: rs' => given prog' rs'
  | s :: prog', _ :: rs' => step_gives G s ++ given prog' rs'
  | _, _ => []
  end.
Fixpoint taken (prog : list dstep) (rs : list (outcome dreport)) : list tval :=
  match prog, rs with
  | s :: prog', Ret r :: rs' => step_takes G s r ++ taken prog' rs'
  | _ :: prog', _ :: rs' => taken prog' rs'
  | _, _ => []
  end.

End DynMachine.
