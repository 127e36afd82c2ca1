(** * DynReach: the vocabulary of the property statements about [VecDyn] and owned values.

    Nothing here models code; these are the words the theorems use. *)

From Verif Require Export Reach DynMachine.

(** A table type with all the built-in traits, for which [build_vtable::<T>()] holds the functions
    of [T].  A program that uses fewer traits is also a program over such a table. *)
Class FullTable (V : Type) : Type := {
  ft_drop :> HasDrop V;
  ft_clone :> HasClone V;
  ft_eq :> HasPartialEq V;
  ft_hash :> HasHash V;
  ft_debug :> HasDebug V;
  ft_build :> VTable V;
  ft_sized :> Sized V;
  ft_lawful :> Lawful V
}.

(** The types of a program: the layout rules of Rust, clones of zero-sized values are values, and
    no destructor panics.  (Clones may panic.) *)
Record types_ok (G : tenv) : Prop := {
  ok_layout : wf_tenv G;
  ok_clones : clones_ok G;
  ok_drops : drops_quietly G
}.

(** No step of the program loses a value (see [loses] in DynSpec.v). *)
Definition keeps_all (prog : list dstep) (rs : list dreport) : Prop :=
  Forall2 (fun s r => loses s r = false) prog rs.

(** The calls that, when a destructor panics in them, leave the values dropped so far in the vector
    (C30); and: none of those of the program panicked. *)
Definition leaves_dropped (s : dstep) : bool :=
  match s with DCall _ VClear | DCall _ (VResize _ _ _) => true | _ => false end.
Definition none_left_dropped (prog : list dstep) (rs : list (outcome dreport)) : Prop :=
  forall s p, In (s, Panic p) (combine prog rs) -> leaves_dropped s = false.

(** What a step reports; [None]: it panicked. *)
Definition step_report (o : outcome dreport) : option dreport :=
  match o with Ret r => Some r | _ => None end.

Section DynReach.
Context {V : Type} `{HasDrop V} `{HasClone V} `{HasPartialEq V} `{HasHash V} `{HasDebug V}
        `{VTable V} `{Sized V} (P : profile) (G : tenv).

(** A state that some program reaches.  The arguments of the program are values of their types
    ([dstep_typed]: checked by the compiler) and in range ([dyn_in_range]: see DynMachine.v).  Calls
    of the program may panic; the program catches the panic and goes on. *)
Definition dreachable (st : dstate (V := V)) : Prop :=
  exists prog, Forall (dstep_typed G) prog /\ dyn_in_range P G prog d_init /\
               st = snd (drun P G prog d_init).

(** [b] is a live vector of some reachable state, and [w] is that state's memory and trace; likewise
    for two different vectors, an owned value, two different ones, a vector and an owned value. *)
Definition live_vec (b : vecdyn V) (w : world) : Prop :=
  exists st h, dreachable st /\ dget st h = Some (OVec b) /\ w = d_world st.
(** The same for a program in which destructors may have panicked, but which was not aborted (by a
    destructor that panics while a panic is unwinding). *)
Definition running_vec (b : vecdyn V) (w : world) : Prop :=
  exists prog h, Forall (dstep_typed G) prog /\ dyn_in_range P G prog d_init /\
    ~ In Abort (fst (drun P G prog d_init)) /\
    dget (snd (drun P G prog d_init)) h = Some (OVec b) /\
    w = d_world (snd (drun P G prog d_init)).
Definition live_vecs (b b' : vecdyn V) (w : world) : Prop :=
  exists st h h', dreachable st /\ h <> h' /\ dget st h = Some (OVec b) /\
                  dget st h' = Some (OVec b') /\ w = d_world st.
Definition live_val (v : value V) (w : world) : Prop :=
  exists st k, dreachable st /\ dget st k = Some (OVal v) /\ w = d_world st.
Definition live_vals (v v' : value V) (w : world) : Prop :=
  exists st k k', dreachable st /\ k <> k' /\ dget st k = Some (OVal v) /\
                  dget st k' = Some (OVal v') /\ w = d_world st.
Definition live_vec_val (b : vecdyn V) (v : value V) (w : world) : Prop :=
  exists st h k, dreachable st /\ dget st h = Some (OVec b) /\ dget st k = Some (OVal v) /\
                 w = d_world st.

(** [r] is a reference that a program can hold in some reachable state. *)
Definition live_ref (r : vref V) (w : world) : Prop :=
  exists st s, dreachable st /\ source_typed G s /\ source_in_range P st s /\
               get_source P G st s = inr (Ret r) /\ w = d_world st.
(** ... together with a live vector, or a live owned value, that it does not borrow from. *)
Definition live_vec_ref (b : vecdyn V) (r : vref V) (w : world) : Prop :=
  exists st h s, dreachable st /\ dget st h = Some (OVec b) /\ source_typed G s /\
                 source_in_range P st s /\ uses h s = false /\
                 get_source P G st s = inr (Ret r) /\ w = d_world st.
Definition live_val_ref (v : value V) (r : vref V) (w : world) : Prop :=
  exists st k s, dreachable st /\ dget st k = Some (OVal v) /\ source_typed G s /\
                 source_in_range P st s /\ uses k s = false /\
                 get_source P G st s = inr (Ret r) /\ w = d_world st.

(** What a user sees of a vector: reading it with [as_slice_as::<T>()] gives [xs].  ([T] is not
    zero-sized: no vector of zero-sized elements can be constructed, see C07.) *)
Definition contents (b : vecdyn V) (t : tyid) (xs : list payload) : Prop :=
  t_size (G t) <> 0 /\ vd_as_slice_as G t b = Ret (Some xs).

(** The vector has lost its contents: it has become a vector of [()]. *)
Definition lost_vec (b : vecdyn V) : Prop :=
  vd_element_type_id b = unit_id /\
  forall t, t_size (G t) <> 0 -> vd_as_slice_as G t b = Ret None.

(** What a user sees of a reference and of an owned value: its type and what it downcasts to. *)
Definition ref_is (r : vref V) (t : tyid) (x : payload) : Prop :=
  vr_type_id r = t /\ vr_downcast G t r = Ret (Some x).
Definition value_is (v : value V) (t : tyid) (x : payload) : Prop :=
  vl_type_id v = t /\ ref_is (vl_as_ref v) t x.

(** A user sees the objects of [lst] in the state [st], and clones and drops happened as in [lst]. *)
Definition shows_objects (st : dstate (V := V)) (lst : lstate) : Prop :=
  List.length (d_objs st) = List.length (l_objs lst) /\
  (forall h t xs, lget lst h = Some (LVec t xs) <->
     exists b, dget st h = Some (OVec b) /\ contents b t xs) /\
  (forall k small t x, lget lst k = Some (LVal small t x) <->
     exists v, dget st k = Some (OVal v) /\ value_is v t x /\
               small = match vl_store v with Inline => true | Boxed _ => false end) /\
  (forall h, lget lst h = Some LLost <-> exists b, dget st h = Some (OVec b) /\ lost_vec b) /\
  w_trace (d_world st) = l_trace lst.

End DynReach.

(** The blocks of memory that an owned value owns: its box and its table. *)
Definition val_blocks {V} `{Sized V} (v : value V) : list block := obj_blocks (OVal v).

(** The block of memory that a [Vec<T>] owns. *)
Definition vec_block (G : tenv) (t : tyid) (v : svec) : list block :=
  match v_blk v with
  | Some i => if v_cap v * t_size (G t) =? 0 then []
              else [(i, (v_cap v * t_size (G t), t_align (G t)))]
  | None => []
  end.

(** The memory [w'] is [w] without the blocks [l], respectively with the blocks [l] added. *)
Definition freed (w : world) (l : list block) (w' : world) : Prop :=
  Permutation (w_live w) (l ++ w_live w').
Definition allocated (w : world) (l : list block) (w' : world) : Prop :=
  Permutation (l ++ w_live w) (w_live w').
(** The trace of clones and drops was extended by [es]. *)
Definition events (w : world) (es : list event) (w' : world) : Prop :=
  w_trace w' = w_trace w ++ es.

(** Both boxed or both small. *)
Definition same_kind {V} (v v' : value V) : Prop :=
  match vl_store v, vl_store v' with
  | Boxed _, Boxed _ | Inline, Inline => True
  | _, _ => False
  end.

(** The result of a call with the vectors in it upcast. *)
Definition map_ret {A B} (f : A -> B) (o : outcome A) : outcome B := let! a := o in Ret (f a).
Definition upcast_result {V U} (f : V -> U) (r : outcome (vecdyn V) * world)
  : outcome (vecdyn U) * world := (map_ret (vd_upcast f) (fst r), snd r).
Definition upcast_self {A V U} (f : V -> U) (r : outcome A * vecdyn V * world)
  : outcome A * vecdyn U * world := let '(o, b, w) := r in (o, vd_upcast f b, w).

(** The type information ([Meta]) that a live vector, a reference, an owned value of type [t], or a
    slice of [t] converts to. *)
Definition taken_from {V} (T : FullTable V) (P : profile) (G : tenv) (t : tyid) (m : meta V) : Prop :=
  (exists (b : vecdyn V) w xs, live_vec P G b w /\ contents G b t xs /\ m = meta_of_vecdyn b) \/
  (exists (r : vref V) w x, live_ref P G r w /\ ref_is G r t x /\ m = meta_of_vref r) \/
  (exists (v : value V) w x, live_val P G v w /\ value_is G v t x /\
     (m = meta_of_vref (vl_as_ref v) \/ m = meta_of_vmut (vl_as_mut v))) \/
  (exists xs, m = meta_of_slice (sl_from_slice G t xs (build_vtable (V := V) t))).

(** Two shared views of a value that no method tells apart: they have the same type, downcast to
    the same thing at every type, size new vectors alike, and compare, hash, format and clone
    alike. *)
Definition same_view {V} (T : FullTable V) (G : tenv) (r r' : vref V) : Prop :=
  vr_type_id r = vr_type_id r' /\ (forall t, vr_downcast G t r = vr_downcast G t r') /\
  meta_of_vref r = meta_of_vref r' /\
  (forall o, vr_eq G r o = vr_eq G r' o) /\ (forall o, vr_eq G o r = vr_eq G o r') /\
  vr_hash G r = vr_hash G r' /\ vr_fmt G r = vr_fmt G r' /\
  (forall w, vr_clone_value G r w = vr_clone_value G r' w) /\
  (forall w, vr_clone_small_value G r w = vr_clone_small_value G r' w).

(** The same for a mutable view and what it is lent as: besides, writing through either writes the
    same ([same_after]), and has the same effect. *)
Definition same_after {A V} (x y : outcome A * vmut V * world) : Prop :=
  let '(o, m, w) := x in let '(o', m', w') := y in
  o = o' /\ w = w' /\ vm_bytes m = vm_bytes m' /\ vm_type_id m = vm_type_id m'.
Definition same_mut {V} (T : FullTable V) (G : tenv) (m m' : vmut V) : Prop :=
  vm_type_id m = vm_type_id m' /\ (forall t, vm_downcast G t m = vm_downcast G t m') /\
  meta_of_vmut m = meta_of_vmut m' /\
  (forall o, vm_eq G m o = vm_eq G m' o) /\ (forall o, vm_eq G o m = vm_eq G o m') /\
  vm_hash G m = vm_hash G m' /\ vm_fmt G m = vm_fmt G m' /\
  (forall w, vm_clone_value G m w = vm_clone_value G m' w) /\
  (forall w, vm_clone_small_value G m w = vm_clone_small_value G m' w) /\
  (forall v w, same_after (vm_assign G m v w) (vm_assign G m' v w)) /\
  (forall r w, same_after (vm_clone_from_other G m r w) (vm_clone_from_other G m' r w)) /\
  (forall t x w, same_after (vm_downcast_assign G t x m w) (vm_downcast_assign G t x m' w)) /\
  (forall o, let '(r1, m1, o1) := vm_swap m o in let '(r2, m2, o2) := vm_swap m' o in
             r1 = r2 /\ vm_bytes m1 = vm_bytes m2 /\ o1 = o2).

(** A mutable view and a shared view of the same value. *)
Definition view_of_mut {V} (T : FullTable V) (G : tenv) (m : vmut V) (r : vref V) : Prop :=
  vr_type_id r = vm_type_id m /\ (forall t, vr_downcast G t r = vm_downcast G t m) /\
  meta_of_vref r = meta_of_vmut m /\
  vr_hash G r = vm_hash G m /\ vr_fmt G r = vm_fmt G m /\
  (forall w, vr_clone_value G r w = vm_clone_value G m w) /\
  (forall w, vr_clone_small_value G r w = vm_clone_small_value G m w).

(** Dropping the values [xs] of type [t] in order after trace [tr], up to the first destructor that
    panics: the values whose destructors run (the panicking one included), and whether all of them
    return. *)
Fixpoint drop_seq (G : tenv) (t : tyid) (tr : list event) (xs : list payload)
  : list payload * bool :=
  match xs with
  | [] => ([], true)
  | x :: xs' =>
      if negb (t_copy (G t)) && t_drop_panics (G t) tr x then ([x], false)
      else let '(ds, ok) := drop_seq G t (tr ++ drops G t [x]) xs' in (x :: ds, ok)
  end.
