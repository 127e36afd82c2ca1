(** * PropertiesCopy: the properties of [VecCopy] and its slice views.

    Every theorem is closed by a lemma proved in another file.  Beside each theorem an example
    shows that a concrete case meets its hypotheses.  A theorem whose name ends in [_partial]
    proves part of the property; one ending in [_refuted] shows that the property as stated is
    false of the code.  The words used in the statements are defined in Reach.v ([live_buffer],
    [shows], [gone], [room] ...) and Spec.v (the meaning of programs on plain lists). *)

From Verif Require Import GrowFacts WrapFacts CopyFacts4 RoomFacts RoomExamples.

(** ** C01 Vec round trip *)

Theorem c01_vec_round_trip :
  forall (V : Type) (P : profile) (G : tenv) (build : tyid -> V), wf_tenv G ->
  forall t cap xs w vec w1,
  wf_world w -> t_size (G t) <> 0 ->
  vec_make G t cap xs w = (Ret vec, w1) ->
  exists b w2,
    vc_from_vec G t vec (build t) w1 = (Ret b, w2) /\
    vc_len b = lenN xs /\ vc_element_type_id b = t /\
    exists vec',
      vc_into_vec P G t b w2 = (Ret (Some vec'), w2) /\
      vec_elems G t vec' = Ret xs /\
      v_cap vec <= v_cap vec' /\
      w_trace w2 = w_trace w1 /\
      (v_cap vec <> 0 -> vec' = vec /\ w2 = w1).
Proof. exact c01_vec_round_trip_fact. Qed.
Print Assumptions c01_vec_round_trip.
Example c01_vec_round_trip_ex :
  exists vec w1, wf_world w0 /\ t_size (ex_env ty_u32) <> 0 /\
    vec_make ex_env ty_u32 4 [10; 20; 30]%Z w0 = (Ret vec, w1) /\ v_cap vec = 4.
Proof. do 2 eexists. csplit; [apply wf_w0|discriminate|vm_compute; reflexivity|reflexivity]. Qed.

Theorem c01_into_vec :
  forall (V : Type) (P : profile) (G : tenv) (build : tyid -> V), wf_tenv G ->
  forall b w t xs,
  live_buffer P G build b w -> shows G b t xs ->
  exists vec,
    vc_into_vec P G t b w = (Ret (Some vec), w) /\ vec_elems G t vec = Ret xs /\
    v_blk vec = vv_blk (vc_data b) /\ v_len vec = vc_len b /\ v_cap vec = vc_capacity b.
Proof. exact c01_into_vec_fact. Qed.
Print Assumptions c01_into_vec.
Example c01_into_vec_ex :
  live_buffer release ex_env ex_build (buf release p_u32 0) (mem release p_u32) /\
  shows ex_env (buf release p_u32 0) ty_u32 [10; 20; 30]%Z.
Proof. split; [apply u32_live|apply u32_shows]; auto. Qed.

(** ** C02 Typed access is guarded by the element type *)

Theorem c02_wrong_type_refused :
  forall (V : Type) (P : profile) (G : tenv) (build : tyid -> V), wf_tenv G ->
  forall b w t xs t',
  live_buffer P G build b w -> shows G b t xs -> t' <> t ->
  vc_check t' b = false /\
  (forall v, vc_push_as P G t' v b w =
             let '(o, w') := drop_val G t' v w in (let! _ := o in Ret false, b, w')) /\
  (forall n v, vc_resize P G t' n v b w = (Ret false, b, w)) /\
  (forall v, vc_fill G t' v b = (Ret false, b)) /\
  (forall f, vc_as_mut_slice_as G t' f b = (Ret false, b)) /\
  (forall vs, vc_copy_from_slice P G t' vs b = (Ret false, b)) /\
  vc_as_slice_as G t' b = Ret None /\
  (forall i, i < lenN xs -> vc_get_as G t' i b = Ret None) /\
  (forall i v, i < lenN xs -> vc_set_as G t' i v b = (Ret false, b)) /\
  (forall vec, vc_append_copy_to_vec G t' b vec w = (Ret false, vec, w)) /\
  vc_copy_into_vec G t' b w = (Ret None, w) /\
  fst (vc_into_vec P G t' b w) = Ret None.
Proof. exact c02_wrong_type_refused_fact. Qed.
Print Assumptions c02_wrong_type_refused.
Example c02_wrong_type_refused_ex :
  live_buffer release ex_env ex_build (buf release p_u32 0) (mem release p_u32) /\
  shows ex_env (buf release p_u32 0) ty_u32 [10; 20; 30]%Z /\ ty_f32 <> ty_u32 /\
  t_size (ex_env ty_f32) = t_size (ex_env ty_u32).
Proof. csplit; [apply u32_live; auto|apply u32_shows; auto|discriminate|reflexivity]. Qed.

Theorem c02_right_type_accepted :
  forall (V : Type) (P : profile) (G : tenv) (build : tyid -> V), wf_tenv G ->
  forall b w t xs,
  live_buffer P G build b w -> shows G b t xs ->
  vc_check t b = true /\
  (forall v, fst (fst (vc_push_as P G t v b w)) <> Ret false) /\
  (forall n v, fst (fst (vc_resize P G t n v b w)) <> Ret false) /\
  (forall v, fst (vc_fill G t v b) = Ret true) /\
  (forall f, fst (vc_as_mut_slice_as G t f b) = Ret true) /\
  (forall vs, fst (vc_copy_from_slice P G t vs b) <> Ret false) /\
  (forall i, i < lenN xs -> exists v, vc_get_as G t i b = Ret (Some v)) /\
  (forall i v, i < lenN xs -> fst (vc_set_as G t i v b) = Ret true) /\
  (forall vec, fst (fst (vc_append_copy_to_vec G t b vec w)) <> Ret false) /\
  fst (vc_copy_into_vec G t b w) <> Ret None /\
  (exists vec, fst (vc_into_vec P G t b w) = Ret (Some vec)).
Proof. exact c02_right_type_accepted_fact. Qed.
Print Assumptions c02_right_type_accepted.
Example c02_right_type_accepted_ex :
  live_buffer dev ex_env ex_build (buf dev p_arr 0) (mem dev p_arr) /\
  shows ex_env (buf dev p_arr 0) ty_u32x3 [1; 2]%Z.
Proof. split; [apply arr_live|apply arr_shows]; auto. Qed.

(** ** C03 VecCopy behaves as a plain list *)

Theorem c03_list_refinement_partial :
  forall (V : Type) (P : profile) (G : tenv) (build : tyid -> V), wf_tenv G ->
  forall prog rs st,
  Forall (step_typed G) prog -> in_range P G build prog c_init ->
  run P G build prog c_init = (map Ret rs, st) ->
  exists lst,
    list_run G prog [] = Some (rs, lst) /\
    List.length lst = List.length (c_store st) /\
    forall h,
      match nth_error lst h with
      | Some (Some (t, xs)) =>
          exists b, get st h = Some b /\ shows G b t xs /\
                    vc_element_type_id b = t /\ vc_len b = lenN xs
      | _ => get st h = None
      end.
Proof. exact c03_list_refinement_partial_fact. Qed.
Print Assumptions c03_list_refinement_partial.
(** In builds with overflow checks and debug assertions there is no condition on arguments. *)
Theorem c03_list_refinement_checked_partial :
  forall (V : Type) (P : profile) (G : tenv) (build : tyid -> V), wf_tenv G -> checked P ->
  forall prog rs st,
  Forall (step_typed G) prog ->
  run P G build prog c_init = (map Ret rs, st) ->
  exists lst,
    list_run G prog [] = Some (rs, lst) /\
    List.length lst = List.length (c_store st) /\
    forall h,
      match nth_error lst h with
      | Some (Some (t, xs)) =>
          exists b, get st h = Some b /\ shows G b t xs /\
                    vc_element_type_id b = t /\ vc_len b = lenN xs
      | _ => get st h = None
      end.
Proof. exact c03_list_refinement_checked_partial_fact. Qed.
Print Assumptions c03_list_refinement_checked_partial.

(** A program over several buffers that runs without panic, with what it reports. *)
Definition p_history : list step :=
  p_two ++ [MAppend 0 1; MCall 0 (SRotL 1); MClone 0; MCall 3 (SResize ty_u32 6 0%Z);
            MCall 0 (SReadAs ty_u32); MCall 3 (SReadAs ty_u32); MCall 1 SLen;
            MCall 3 (SSwap 0 5); MCall 3 (SSubslice 0 3 ty_u32); MIntoVec 3 ty_u32;
            MCall 2 (SReadAs ty_u32); MDrop 0].
Example c03_list_refinement_ex : forall P, P = dev \/ P = release ->
  Forall (step_typed ex_env) p_history /\ in_range P ex_env ex_build p_history c_init /\
  exists st, run P ex_env ex_build p_history c_init =
    (map Ret (map RObs [OUnit; OUnit; OBool true; OBool true; OUnit;
                        OBool true; OUnit; OUnit; OBool true;
                        OVals (Some [2; 5; 6; 1]%Z); OVals (Some [2; 5; 6; 1; 0; 0]%Z); ONum 0;
                        OUnit; OVals (Some [0; 5; 6]%Z); OVals (Some [0; 5; 6; 1; 0; 2]%Z);
                        OVals None; OUnit]), st).
Proof.
  intros P [-> | ->]; (csplit; [typed_prog|vm_compute; intuition (try discriminate; auto)
                              |eexists; vm_compute; reflexivity]).
Qed.

(** In a release build offsets are multiplied by the element size without overflow check: a
    rotation by an amount far out of range goes through, while on a list it is refused. *)
Theorem c03_list_refinement_refuted :
  exists prog rs st,
    Forall (step_typed ex_env) prog /\
    run release ex_env ex_build prog c_init = (map Ret rs, st) /\
    list_run ex_env prog [] = None.
Proof.
  exists [MNew (KFromSlice ty_u8x3 [1; 2]%Z); MCall 0 (SRotL 12297829382473034411)].
  exists (map RObs [OUnit; OUnit]). eexists. csplit; [typed_prog|vm_compute; reflexivity|vm_compute; reflexivity].
Qed.
Print Assumptions c03_list_refinement_refuted.

(** ** C04 VecCopy memory ledger *)

Theorem c04_memory_ledger :
  forall (V : Type) (P : profile) (G : tenv) (build : tyid -> V), wf_tenv G ->
  forall prog,
  Forall (step_typed G) prog ->
  let '(rs, st) := run P G build prog c_init in
  ~ In (UB UbDealloc) rs /\ ~ In Abort rs /\
  ((forall u, ~ In (UB u) rs) ->
   exists lost,
    Permutation (w_live (c_world st)) (owned_blocks st ++ lost) /\
    NoDup (map fst (w_live (c_world st))) /\
    (Forall is_ret rs -> lost = [])).
Proof. exact c04_memory_ledger_fact. Qed.
Print Assumptions c04_memory_ledger.
(** The hypotheses hold of [p_history] (see C03) and of programs with caught panics. *)
Definition p_panics : list step :=
  [MNew (KFromSlice ty_u32 [1; 2; 3]%Z); MNew (KFromSlice ty_u32x3 [4; 5]%Z);
   MCall 0 (SRotL 4); MCall 1 (SPush ty_u32x3 6%Z); MCall 1 (SGetAs ty_u32x3 9);
   MCall 0 (SReadAs ty_u32); MCall 0 SLen; MNew (KWithType ty_marker); MDrop 0; MDrop 1].
Example c04_memory_ledger_ex : forall P, P = dev \/ P = release ->
  Forall (step_typed ex_env) p_panics /\ Forall (no_zero_sized_push ex_env) p_panics /\
  in_range P ex_env ex_build p_panics c_init /\
  fst (run P ex_env ex_build p_panics c_init) =
    [Ret (RObs OUnit); Ret (RObs OUnit); Panic PAssert; Panic PAssert; Panic PAssert;
     Ret (RObs (OVals None)); Ret (RObs (ONum 0)); Panic PAssert; Ret (RObs OUnit); Ret (RObs OUnit)].
Proof.
  intros P [-> | ->]; (csplit; [typed_prog|repeat (constructor; [vm_compute; auto; discriminate|]); constructor
    |vm_compute; intuition (try discriminate; auto)|vm_compute; reflexivity]).
Qed.

(** In a release build calls that are out of range are included: a rotation that wraps around and
    mixes the bytes of neighbouring elements.  The ledger is still right afterwards; reading the
    elements is undefined behaviour. *)
Definition p_wild : list step :=
  [MNew (KFromSlice ty_u8x3 [1; 2]%Z); MCall 0 (SRotL 12297829382473034411); MClone 0;
   MAppend 0 1; MCall 0 (SReserve 12297829382473034411); MDrop 1].
Example c04_memory_ledger_wild_ex :
  Forall (step_typed ex_env) (p_wild ++ [MCall 0 (SReadAs ty_u8x3)]) /\
  (let '(rs, st) := run release ex_env ex_build p_wild c_init in
   rs = [Ret (RObs OUnit); Ret (RObs OUnit); Ret (RObs OUnit); Ret (RObs (OBool true));
         Ret (RObs OUnit); Ret (RObs OUnit)] /\
   w_live (c_world st) = owned_blocks st /\ lenN (owned_blocks st) = 1) /\
  In (UB UbValue) (fst (run release ex_env ex_build (p_wild ++ [MCall 0 (SReadAs ty_u8x3)]) c_init)).
Proof.
  csplit; [typed_prog|vm_compute; auto|vm_compute; auto 10].
Qed.

(** ** C05 Safe VecCopy calls never cause undefined behaviour *)

Theorem c05_no_undefined_behaviour_partial :
  forall (V : Type) (P : profile) (G : tenv) (build : tyid -> V), wf_tenv G ->
  forall prog,
  Forall (step_typed G) prog -> in_range P G build prog c_init ->
  List.length (fst (run P G build prog c_init)) = List.length prog /\
  Forall (fun o => is_ret o \/ is_panic o) (fst (run P G build prog c_init)).
Proof. exact c05_no_undefined_behaviour_partial_fact. Qed.
Print Assumptions c05_no_undefined_behaviour_partial.
Theorem c05_no_undefined_behaviour_checked_partial :
  forall (V : Type) (P : profile) (G : tenv) (build : tyid -> V), wf_tenv G -> checked P ->
  forall prog,
  Forall (step_typed G) prog -> Forall (no_zero_sized_push G) prog ->
  List.length (fst (run P G build prog c_init)) = List.length prog /\
  Forall (fun o => is_ret o \/ is_panic o) (fst (run P G build prog c_init)).
Proof. exact c05_no_undefined_behaviour_checked_partial_fact. Qed.
Print Assumptions c05_no_undefined_behaviour_checked_partial.
(** See [c04_memory_ledger_ex] for a program that meets the hypotheses. *)
Example c05_no_undefined_behaviour_ex : forall P, P = dev \/ P = release ->
  Forall (step_typed ex_env) p_panics /\ in_range P ex_env ex_build p_panics c_init.
Proof. intros P HP. destruct (c04_memory_ledger_ex P HP) as (H1 & _ & H2 & _). auto. Qed.

(** In every profile: a caught panic leaves a buffer of [()]; pushing a reference to a [()] onto it
    reads a chunk outside the reference. *)
Theorem c05_no_undefined_behaviour_refuted :
  exists prog, Forall (step_typed ex_env) prog /\
    forall P, P = dev \/ P = release -> In (UB UbOob) (fst (run P ex_env ex_build prog c_init)).
Proof.
  exists [MNew (KFromSlice ty_u32 [1; 2]%Z); MCall 0 (SRotL 3); MCall 0 (SPush ty_unit 0%Z)].
  split; [typed_prog|]. intros P [-> | ->]; vm_compute; auto.
Qed.
Print Assumptions c05_no_undefined_behaviour_refuted.

(** In a release build: rotating by a wrapped-around amount splits elements, and the next typed
    read sees bytes that are no value of the type. *)
Theorem c05_wrapping_rotation_refuted :
  exists prog, Forall (step_typed ex_env) prog /\
    In (UB UbValue) (fst (run release ex_env ex_build prog c_init)).
Proof.
  exists [MNew (KFromSlice ty_u8x3 [1; 2]%Z); MCall 0 (SRotL 12297829382473034411);
          MCall 0 (SReadAs ty_u8x3)].
  split; [typed_prog|]. vm_compute. auto.
Qed.
Print Assumptions c05_wrapping_rotation_refuted.

(** ** C06 Untyped indexing is bounds-checked *)

Theorem c06_get_in_bounds :
  forall (V : Type) (P : profile) (G : tenv) (build : tyid -> V), wf_tenv G ->
  forall b w t xs i v,
  live_buffer P G build b w -> shows G b t xs -> nthN xs i = Some v ->
  (exists r, vc_get_ref P i b = Ret r /\ cr_downcast G t r = Ret (Some v) /\
             forall t', t' <> t -> cr_downcast G t' r = Ret None) /\
  (forall v', exists b', vc_get_mut_copy P i (mk_ref G build t v') b = (Ret true, b') /\
                         shows G b' t (list_set xs (N.to_nat i) v')) /\
  (forall t' v', t' <> t -> vc_get_mut_copy P i (mk_ref G build t' v') b = (Ret false, b)).
Proof. exact c06_get_in_bounds_fact. Qed.
Print Assumptions c06_get_in_bounds.
Example c06_get_in_bounds_ex :
  live_buffer release ex_env ex_build (buf release p_u32 0) (mem release p_u32) /\
  shows ex_env (buf release p_u32 0) ty_u32 [10; 20; 30]%Z /\ nthN [10; 20; 30]%Z 2 = Some 30%Z.
Proof. csplit; [apply u32_live; auto|apply u32_shows; auto|reflexivity]. Qed.

Theorem c06_get_out_of_bounds_partial :
  forall (V : Type) (P : profile) (G : tenv) (build : tyid -> V), wf_tenv G ->
  forall b w t xs i,
  live_buffer P G build b w -> shows G b t xs -> lenN xs <= i -> debug_assertions P = true ->
  vc_get_ref P i b = Panic PDebugAssert /\ vc_get_mut P i b = Panic PDebugAssert.
Proof. exact c06_get_out_of_bounds_partial_fact. Qed.
Print Assumptions c06_get_out_of_bounds_partial.
Example c06_get_out_of_bounds_ex :
  live_buffer dev ex_env ex_build (buf dev p_u32 0) (mem dev p_u32) /\
  shows ex_env (buf dev p_u32 0) ty_u32 [10; 20; 30]%Z /\ lenN [10; 20; 30]%Z <= 3 /\
  debug_assertions dev = true.
Proof. csplit; [apply u32_live; auto|apply u32_shows; auto|vm_compute; discriminate|reflexivity]. Qed.

(** Without debug assertions an out-of-range index is undefined behaviour. *)
Theorem c06_get_out_of_bounds_refuted :
  exists b w i,
    live_buffer release ex_env ex_build b w /\ shows ex_env b ty_u32 [10; 20; 30]%Z /\
    3 <= i /\ vc_get_ref release i b = UB UbOob /\ vc_get_mut release i b = UB UbOob.
Proof.
  exists (buf release p_u32 0), (mem release p_u32), 3.
  csplit; [apply u32_live; auto|apply u32_shows; auto|lia|vm_compute; reflexivity|vm_compute; reflexivity].
Qed.
Print Assumptions c06_get_out_of_bounds_refuted.

(** ** C07 Zero-sized element types are rejected *)

Theorem c07_zero_sized_rejected :
  forall (V : Type) (P : profile) (G : tenv) (build : tyid -> V), wf_tenv G ->
  forall t w,
  t_size (G t) = 0 -> t_copy (G t) = true ->
  (forall cap xs vec w1, vec_make G t cap xs w = (Ret vec, w1) ->
     vc_from_vec G t vec (build t) w1 = (Panic PAssert, w1)) /\
  vc_with_type G t (build t) w = (Panic PAssert, w) /\
  (forall n, vc_with_capacity G t n (build t) w = (Panic PAssert, w)) /\
  (forall n v, vc_with_size G t n v (build t) w = (Panic PAssert, w)) /\
  (forall xs, vc_from_slice G t xs (build t) w = (Panic PAssert, w)) /\
  (forall v, vc_with_type_from P (meta_of_copy_ref (mk_ref G build t v)) w = (Panic PDivZero, w)) /\
  (forall v hint rest, vc_from_iter P hint (mk_ref G build t v :: rest) w = (Panic PDivZero, w)).
Proof. exact c07_zero_sized_rejected_fact. Qed.
Print Assumptions c07_zero_sized_rejected.
Example c07_zero_sized_rejected_ex :
  t_size (ex_env ty_marker) = 0 /\ t_copy (ex_env ty_marker) = true /\
  exists vec w1, vec_make ex_env ty_marker 2 [0; 0]%Z w0 = (Ret vec, w1).
Proof. csplit; try reflexivity. do 2 eexists. vm_compute. reflexivity. Qed.

Theorem c07_sized_constructors :
  forall (V : Type) (P : profile) (G : tenv) (build : tyid -> V), wf_tenv G ->
  forall t w,
  wf_world w -> t_size (G t) <> 0 ->
  (exists b w', vc_with_type G t (build t) w = (Ret b, w') /\ shows G b t []) /\
  (forall n, n * t_size (G t) <= max_alloc (t_align (G t)) ->
     exists b w', vc_with_capacity G t n (build t) w = (Ret b, w') /\ shows G b t [] /\
                  n <= vc_capacity b) /\
  (forall n v, n * t_size (G t) <= max_alloc (t_align (G t)) ->
     exists b w', vc_with_size G t n v (build t) w = (Ret b, w') /\
                  shows G b t (repeat v (N.to_nat n))) /\
  (forall xs, lenN xs * t_size (G t) <= max_alloc (t_align (G t)) ->
     exists b w', vc_from_slice G t xs (build t) w = (Ret b, w') /\ shows G b t xs) /\
  (forall v, exists b w',
     vc_with_type_from P (meta_of_copy_ref (mk_ref G build t v)) w = (Ret b, w') /\
     shows G b t []).
Proof. exact c07_sized_constructors_fact. Qed.
Print Assumptions c07_sized_constructors.
Example c07_sized_constructors_ex :
  wf_world w0 /\ t_size (ex_env ty_u32x3) <> 0 /\
  5 * t_size (ex_env ty_u32x3) <= max_alloc (t_align (ex_env ty_u32x3)).
Proof. csplit; [apply wf_w0|discriminate|vm_compute; discriminate]. Qed.

(** ** C08 reserve guarantees room and keeps contents *)

Theorem c08_reserve_partial :
  forall (V : Type) (P : profile) (G : tenv) (build : tyid -> V), wf_tenv G ->
  forall b w t xs n,
  live_buffer P G build b w -> shows G b t xs ->
  room G t (vc_capacity b) (lenN xs + n) -> ~ odd_growth G t (vc_capacity b) (lenN xs + n) ->
  exists b' w',
    vc_reserve P n b w = (Ret tt, b', w') /\ shows G b' t xs /\
    lenN xs + n <= vc_capacity b' /\ vc_capacity b <= vc_capacity b' /\
    w_trace w' = w_trace w /\
    (lenN xs + n <= vc_capacity b -> b' = b /\ w' = w).
Proof. exact c08_reserve_partial_fact. Qed.
Print Assumptions c08_reserve_partial.
Example c08_reserve_ex :
  live_buffer release ex_env ex_build (buf release p_u32 0) (mem release p_u32) /\
  shows ex_env (buf release p_u32 0) ty_u32 [10; 20; 30]%Z /\
  room ex_env ty_u32 (vc_capacity (buf release p_u32 0)) (3 + 7) /\
  ~ odd_growth ex_env ty_u32 (vc_capacity (buf release p_u32 0)) (3 + 7).
Proof.
  csplit; [apply u32_live; auto|apply u32_shows; auto|right; vm_compute; discriminate|].
  intros (H & _). discriminate H.
Qed.

(** Exactly when reserve panics, and that the contents are then lost. *)
Theorem c08_reserve_panics :
  forall (V : Type) (P : profile) (G : tenv) (build : tyid -> V), wf_tenv G ->
  forall b w t xs n,
  live_buffer P G build b w -> shows G b t xs -> fits P n (t_size (G t)) ->
  ~ room G t (vc_capacity b) (lenN xs + n) \/ odd_growth G t (vc_capacity b) (lenN xs + n) ->
  exists p b' w', vc_reserve P n b w = (Panic p, b', w') /\ gone G b'.
Proof. exact c08_reserve_panics_fact. Qed.
Print Assumptions c08_reserve_panics.
Example c08_reserve_panics_ex :
  live_buffer release ex_env ex_build (buf release p_odd 0) (mem release p_odd) /\
  shows ex_env (buf release p_odd 0) ty_u8x3 [7]%Z /\ fits release 1 (t_size (ex_env ty_u8x3)) /\
  odd_growth ex_env ty_u8x3 (vc_capacity (buf release p_odd 0)) (1 + 1).
Proof.
  csplit; [apply odd_live; auto|apply odd_shows; auto|left; vm_compute; discriminate|].
  unfold odd_growth. csplit; reflexivity.
Qed.

(** There is room, and yet reserving one element panics and loses the buffer. *)
Theorem c08_reserve_refuted :
  exists b w xs n, 
    live_buffer release ex_env ex_build b w /\ shows ex_env b ty_u8x3 xs /\
    room ex_env ty_u8x3 (vc_capacity b) (lenN xs + n) /\
    exists p b' w', vc_reserve release n b w = (Panic p, b', w') /\ gone ex_env b'.
Proof.
  exists (buf release p_odd 0), (mem release p_odd), [7]%Z, 1.
  csplit; [apply odd_live; auto|apply odd_shows; auto|right; vm_compute; discriminate|].
  apply (c08_reserve_panics_fact N release ex_env ex_build ex_env_wf _ _ ty_u8x3 [7]%Z).
  - apply odd_live; auto.
  - apply odd_shows; auto.
  - left. vm_compute. discriminate.
  - right. unfold odd_growth. csplit; reflexivity.
Qed.
Print Assumptions c08_reserve_refuted.

(** In a release build a huge request wraps around and returns without making room. *)
Theorem c08_reserve_wraps_refuted :
  exists b w xs n b' w',
    live_buffer release ex_env ex_build b w /\ shows ex_env b ty_u32x3 xs /\
    vc_reserve release n b w = (Ret tt, b', w') /\ vc_capacity b' < lenN xs + n.
Proof.
  exists (buf release p_arr 0), (mem release p_arr), [1; 2]%Z, 12297829382473034411.
  do 2 eexists. csplit; [apply arr_live; auto|apply arr_shows; auto|vm_compute; reflexivity|vm_compute; reflexivity].
Qed.
Print Assumptions c08_reserve_wraps_refuted.

(** ** C09 resize *)

Theorem c09_resize_partial :
  forall (V : Type) (P : profile) (G : tenv) (build : tyid -> V), wf_tenv G ->
  forall b w t xs n v,
  live_buffer P G build b w -> shows G b t xs ->
  room G t (vc_capacity b) n -> ~ odd_growth G t (vc_capacity b) n ->
  exists b' w',
    vc_resize P G t n v b w = (Ret true, b', w') /\
    shows G b' t (firstnN n xs ++ repeat v (N.to_nat (n - lenN xs))) /\
    w_trace w' = w_trace w.
Proof. exact c09_resize_partial_fact. Qed.
Print Assumptions c09_resize_partial.
Example c09_resize_ex :
  live_buffer release ex_env ex_build (buf release p_u32 0) (mem release p_u32) /\
  shows ex_env (buf release p_u32 0) ty_u32 [10; 20; 30]%Z /\
  room ex_env ty_u32 (vc_capacity (buf release p_u32 0)) 9 /\
  ~ odd_growth ex_env ty_u32 (vc_capacity (buf release p_u32 0)) 9.
Proof.
  csplit; [apply u32_live; auto|apply u32_shows; auto|right; vm_compute; discriminate|].
  intros (H & _). discriminate H.
Qed.

Theorem c09_shrinking_resize :
  forall (V : Type) (P : profile) (G : tenv) (build : tyid -> V), wf_tenv G ->
  forall b w t xs n v,
  live_buffer P G build b w -> shows G b t xs -> n <= lenN xs ->
  exists b',
    vc_resize P G t n v b w = (Ret true, b', w) /\ shows G b' t (firstnN n xs) /\
    vc_capacity b' = vc_capacity b.
Proof. exact c09_shrinking_resize_fact. Qed.
Print Assumptions c09_shrinking_resize.
Example c09_shrinking_resize_ex :
  live_buffer release ex_env ex_build (buf release p_odd 0) (mem release p_odd) /\
  shows ex_env (buf release p_odd 0) ty_u8x3 [7]%Z /\ 0 <= lenN [7]%Z.
Proof. csplit; [apply odd_live; auto|apply odd_shows; auto|lia]. Qed.

(** Exactly when resize panics, and that the contents are then lost. *)
Theorem c09_resize_panics :
  forall (V : Type) (P : profile) (G : tenv) (build : tyid -> V), wf_tenv G ->
  forall b w t xs n v,
  live_buffer P G build b w -> shows G b t xs -> fits P n (t_size (G t)) ->
  ~ room G t (vc_capacity b) n \/ odd_growth G t (vc_capacity b) n ->
  exists p b' w', vc_resize P G t n v b w = (Panic p, b', w') /\ gone G b'.
Proof. exact c09_resize_panics_fact. Qed.
Print Assumptions c09_resize_panics.
Example c09_resize_panics_ex :
  live_buffer release ex_env ex_build (buf release p_odd 0) (mem release p_odd) /\
  shows ex_env (buf release p_odd 0) ty_u8x3 [7]%Z /\ fits release 2 (t_size (ex_env ty_u8x3)) /\
  odd_growth ex_env ty_u8x3 (vc_capacity (buf release p_odd 0)) 2.
Proof.
  csplit; [apply odd_live; auto|apply odd_shows; auto|left; vm_compute; discriminate|].
  unfold odd_growth. csplit; reflexivity.
Qed.

Theorem c09_resize_refuted :
  exists b w p b' w',
    live_buffer release ex_env ex_build b w /\ shows ex_env b ty_u8x3 [7]%Z /\
    room ex_env ty_u8x3 (vc_capacity b) 2 /\
    vc_resize release ex_env ty_u8x3 2 9%Z b w = (Panic p, b', w').
Proof.
  exists (buf release p_odd 0), (mem release p_odd).
  do 3 eexists. csplit; [apply odd_live; auto|apply odd_shows; auto|right; vm_compute; discriminate|vm_compute; reflexivity].
Qed.
Print Assumptions c09_resize_refuted.

(** ** C10 Pushing a value reference *)

Theorem c10_push_partial :
  forall (V : Type) (P : profile) (G : tenv) (build : tyid -> V), wf_tenv G ->
  forall b w t xs v,
  live_buffer P G build b w -> shows G b t xs ->
  t_size (G t) = t_align (G t) -> room G t (vc_capacity b) (lenN xs + 1) ->
  exists b' w',
    vc_push P (mk_ref G build t v) b w = (Ret true, b', w') /\ shows G b' t (xs ++ [v]) /\
    w_trace w' = w_trace w.
Proof. exact c10_push_partial_fact. Qed.
Print Assumptions c10_push_partial.
Example c10_push_ex :
  live_buffer release ex_env ex_build (buf release p_u32 0) (mem release p_u32) /\
  shows ex_env (buf release p_u32 0) ty_u32 [10; 20; 30]%Z /\
  t_size (ex_env ty_u32) = t_align (ex_env ty_u32) /\
  room ex_env ty_u32 (vc_capacity (buf release p_u32 0)) (3 + 1).
Proof. csplit; [apply u32_live; auto|apply u32_shows; auto|reflexivity|left; vm_compute; discriminate]. Qed.

Theorem c10_push_other_type :
  forall (V : Type) (P : profile) (G : tenv) (build : tyid -> V), wf_tenv G ->
  forall b w t xs t' v,
  live_buffer P G build b w -> shows G b t xs -> t' <> t ->
  vc_push P (mk_ref G build t' v) b w =
  (if t_size (G t') =? t_size (G t) then Ret false else Panic PAssert, b, w).
Proof. exact c10_push_other_type_fact. Qed.
Print Assumptions c10_push_other_type.
Example c10_push_other_type_ex :
  live_buffer release ex_env ex_build (buf release p_u32 0) (mem release p_u32) /\
  shows ex_env (buf release p_u32 0) ty_u32 [10; 20; 30]%Z /\ ty_f32 <> ty_u32 /\ ty_u16 <> ty_u32 /\
  t_size (ex_env ty_f32) = t_size (ex_env ty_u32) /\ t_size (ex_env ty_u16) <> t_size (ex_env ty_u32).
Proof. csplit; [apply u32_live; auto|apply u32_shows; auto|discriminate|discriminate|reflexivity|discriminate]. Qed.

(** A full buffer that cannot grow: push panics and loses it. *)
Theorem c10_push_full_panics :
  forall (V : Type) (P : profile) (G : tenv) (build : tyid -> V), wf_tenv G ->
  forall b w t xs v,
  live_buffer P G build b w -> shows G b t xs ->
  ~ room G t (vc_capacity b) (lenN xs + 1) ->
  exists p b' w', vc_push P (mk_ref G build t v) b w = (Panic p, b', w') /\ gone G b'.
Proof. exact c10_push_full_panics_fact. Qed.
Print Assumptions c10_push_full_panics.
Example c10_push_full_panics_ex :
  exists b w, live_buffer release big_env ex_build b w /\ shows big_env b 1 [7]%Z /\
    ~ room big_env 1 (vc_capacity b) (lenN [7]%Z + 1).
Proof.
  destruct big_live as (b & w & Hb & Hs & Hc). exists b, w. csplit; [exact Hb|exact Hs|]. rewrite Hc.
  intros [H|H]; revert H; vm_compute; intros H; now apply H.
Qed.

(** For every element type larger than its alignment, push panics and loses the buffer. *)
Theorem c10_push_never_works :
  forall (V : Type) (P : profile) (G : tenv) (build : tyid -> V), wf_tenv G ->
  forall b w t xs v,
  live_buffer P G build b w -> shows G b t xs -> t_align (G t) < t_size (G t) ->
  exists p b' w', vc_push P (mk_ref G build t v) b w = (Panic p, b', w') /\ gone G b'.
Proof. exact c10_push_never_works_fact. Qed.
Print Assumptions c10_push_never_works.
Example c10_push_never_works_ex :
  live_buffer release ex_env ex_build (buf release p_arr 0) (mem release p_arr) /\
  shows ex_env (buf release p_arr 0) ty_u32x3 [1; 2]%Z /\
  t_align (ex_env ty_u32x3) < t_size (ex_env ty_u32x3).
Proof. csplit; [apply arr_live; auto|apply arr_shows; auto|reflexivity]. Qed.

Theorem c10_push_refuted :
  exists b w v p b' w',
    live_buffer dev ex_env ex_build b w /\ shows ex_env b ty_u32x3 [1; 2]%Z /\
    vc_push dev (mk_ref ex_env ex_build ty_u32x3 v) b w = (Panic p, b', w') /\ gone ex_env b'.
Proof.
  exists (buf dev p_arr 0), (mem dev p_arr), 3%Z.
  destruct (c10_push_never_works_fact N dev ex_env ex_build ex_env_wf _ (mem dev p_arr) ty_u32x3 [1; 2]%Z 3%Z
              (arr_live dev ltac:(auto)) (arr_shows dev ltac:(auto)) ltac:(reflexivity)) as (p & b' & w' & HE & Hg).
  exists p, b', w'. csplit; auto; [apply arr_live; auto|apply arr_shows; auto].
Qed.
Print Assumptions c10_push_refuted.

(** ** C11 extend and collect *)

Theorem c11_extend_partial :
  forall (V : Type) (P : profile) (G : tenv) (build : tyid -> V), wf_tenv G ->
  forall b w t xs hint vs,
  live_buffer P G build b w -> shows G b t xs ->
  t_size (G t) = t_align (G t) ->
  room G t (vc_capacity b) (lenN xs + hint) ->
  lenN vs <= hint \/ growth_fits G t (lenN xs + lenN vs) (lenN xs + lenN vs) ->
  exists b' w',
    vc_extend P hint (map (mk_ref G build t) vs) b w = (Ret tt, b', w') /\
    shows G b' t (xs ++ vs) /\ w_trace w' = w_trace w.
Proof. exact c11_extend_partial_fact. Qed.
Print Assumptions c11_extend_partial.
Example c11_extend_ex :
  live_buffer release ex_env ex_build (buf release p_u32 0) (mem release p_u32) /\
  shows ex_env (buf release p_u32 0) ty_u32 [10; 20; 30]%Z /\
  t_size (ex_env ty_u32) = t_align (ex_env ty_u32) /\
  room ex_env ty_u32 (vc_capacity (buf release p_u32 0)) (3 + 2) /\ lenN [1; 2]%Z <= 2.
Proof.
  csplit; [apply u32_live; auto|apply u32_shows; auto|reflexivity|right; vm_compute; discriminate
          |vm_compute; discriminate].
Qed.

Theorem c11_collect_partial :
  forall (V : Type) (P : profile) (G : tenv) (build : tyid -> V), wf_tenv G ->
  forall w t hint v vs,
  wf_world w -> t_size (G t) <> 0 -> t_size (G t) = t_align (G t) ->
  room G t 1 (1 + hint) ->
  lenN vs <= hint \/ growth_fits G t (1 + lenN vs) (1 + lenN vs) ->
  exists b w',
    vc_from_iter P hint (map (mk_ref G build t) (v :: vs)) w = (Ret b, w') /\
    shows G b t (v :: vs) /\ w_trace w' = w_trace w.
Proof. exact c11_collect_partial_fact. Qed.
Print Assumptions c11_collect_partial.
Example c11_collect_ex :
  wf_world w0 /\ t_size (ex_env ty_u32) <> 0 /\ t_size (ex_env ty_u32) = t_align (ex_env ty_u32) /\
  room ex_env ty_u32 1 (1 + 1) /\ lenN [8]%Z <= 1.
Proof. csplit; [apply wf_w0|discriminate|reflexivity|right; vm_compute; discriminate|vm_compute; discriminate]. Qed.

Theorem c11_mixed_types_panic :
  forall (V : Type) (P : profile) (G : tenv) (build : tyid -> V), wf_tenv G ->
  forall b w t xs hint vals,
  live_buffer P G build b w -> shows G b t xs ->
  Exists (fun p => fst p <> t) vals ->
  is_panic (fst (fst (vc_extend P hint (map (fun p => mk_ref G build (fst p) (snd p)) vals) b w))).
Proof. exact c11_mixed_types_panic_fact. Qed.
Print Assumptions c11_mixed_types_panic.
Example c11_mixed_types_panic_ex :
  live_buffer release ex_env ex_build (buf release p_u32 0) (mem release p_u32) /\
  shows ex_env (buf release p_u32 0) ty_u32 [10; 20; 30]%Z /\
  Exists (fun p => fst p <> ty_u32) [(ty_u32, 1%Z); (ty_f32, 2%Z)].
Proof. csplit; [apply u32_live; auto|apply u32_shows; auto|right; left; discriminate]. Qed.

(** For every element type larger than its alignment, extending by anything panics. *)
Theorem c11_extend_never_works :
  forall (V : Type) (P : profile) (G : tenv) (build : tyid -> V), wf_tenv G ->
  forall b w t xs hint v vs,
  live_buffer P G build b w -> shows G b t xs -> t_align (G t) < t_size (G t) ->
  is_panic (fst (fst (vc_extend P hint (map (mk_ref G build t) (v :: vs)) b w))).
Proof. exact c11_extend_never_works_fact. Qed.
Print Assumptions c11_extend_never_works.
Example c11_extend_never_works_ex :
  live_buffer release ex_env ex_build (buf release p_arr 0) (mem release p_arr) /\
  shows ex_env (buf release p_arr 0) ty_u32x3 [1; 2]%Z /\
  t_align (ex_env ty_u32x3) < t_size (ex_env ty_u32x3).
Proof. csplit; [apply arr_live; auto|apply arr_shows; auto|reflexivity]. Qed.

Theorem c11_collect_refuted :
  exists w', vc_from_iter dev 1 (map (mk_ref ex_env ex_build ty_u32x3) [1; 2]%Z) w0 = (Panic PAssert, w').
Proof. eexists. vm_compute. reflexivity. Qed.
Print Assumptions c11_collect_refuted.

(** ** C12 append *)

Theorem c12_append_partial :
  forall (V : Type) (P : profile) (G : tenv) (build : tyid -> V), wf_tenv G ->
  forall b b' w t xs ys,
  live_pair P G build b b' w -> shows G b t xs -> shows G b' t ys ->
  room G t (vc_capacity b) (lenN xs + lenN ys) ->
  ~ odd_growth G t (vc_capacity b) (lenN xs + lenN ys) ->
  exists b1 b1' w',
    vc_append P b b' w = (Ret true, b1, b1', w') /\
    shows G b1 t (xs ++ ys) /\ shows G b1' t [] /\ vc_capacity b1' = vc_capacity b' /\
    w_trace w' = w_trace w.
Proof. exact c12_append_partial_fact. Qed.
Print Assumptions c12_append_partial.
Example c12_append_ex :
  live_pair release ex_env ex_build (buf release p_two 0) (buf release p_two 1) (mem release p_two) /\
  shows ex_env (buf release p_two 0) ty_u32 [1; 2]%Z /\ shows ex_env (buf release p_two 1) ty_u32 [5; 6]%Z /\
  room ex_env ty_u32 (vc_capacity (buf release p_two 0)) (2 + 2) /\
  ~ odd_growth ex_env ty_u32 (vc_capacity (buf release p_two 0)) (2 + 2).
Proof.
  destruct (two_shows release ltac:(auto)) as (H0 & H1 & _).
  csplit; [apply two_pair; auto|exact H0|exact H1|right; vm_compute; discriminate|].
  intros (H & _). discriminate H.
Qed.

Theorem c12_append_other_type :
  forall (V : Type) (P : profile) (G : tenv) (build : tyid -> V), wf_tenv G ->
  forall b b' w t xs t' ys,
  live_pair P G build b b' w -> shows G b t xs -> shows G b' t' ys -> t' <> t ->
  vc_append P b b' w = (Ret false, b, b', w).
Proof. exact c12_append_other_type_fact. Qed.
Print Assumptions c12_append_other_type.
Example c12_append_other_type_ex :
  live_pair release ex_env ex_build (buf release p_two 0) (buf release p_two 2) (mem release p_two) /\
  shows ex_env (buf release p_two 0) ty_u32 [1; 2]%Z /\
  shows ex_env (buf release p_two 2) ty_u16 [9; 9; 9]%Z /\ ty_u16 <> ty_u32.
Proof.
  destruct (two_shows release ltac:(auto)) as (H0 & _ & H2).
  csplit; [apply two_pair; auto|exact H0|exact H2|discriminate].
Qed.

(** Exactly when append panics, and what is left of both buffers then. *)
Theorem c12_append_panics :
  forall (V : Type) (P : profile) (G : tenv) (build : tyid -> V), wf_tenv G ->
  forall b b' w t xs ys,
  live_pair P G build b b' w -> shows G b t xs -> shows G b' t ys ->
  ~ room G t (vc_capacity b) (lenN xs + lenN ys) \/ odd_growth G t (vc_capacity b) (lenN xs + lenN ys) ->
  exists p b1 b1' w',
    vc_append P b b' w = (Panic p, b1, b1', w') /\ gone G b1 /\
    (~ room G t (vc_capacity b) (lenN xs + lenN ys) -> gone G b1') /\
    (odd_growth G t (vc_capacity b) (lenN xs + lenN ys) -> shows G b1' t []).
Proof. exact c12_append_panics_fact. Qed.
Print Assumptions c12_append_panics.
Example c12_append_panics_ex :
  let p := p_odd ++ p_odd in
  live_pair release ex_env ex_build (buf release p 0) (buf release p 1) (mem release p) /\
  shows ex_env (buf release p 0) ty_u8x3 [7]%Z /\ shows ex_env (buf release p 1) ty_u8x3 [7]%Z /\
  odd_growth ex_env ty_u8x3 (vc_capacity (buf release p 0)) (1 + 1).
Proof.
  cbv zeta. csplit.
  - exists (final release (p_odd ++ p_odd)), 0%nat, 1%nat.
    split; [|split; [discriminate|split; [vm_compute; reflexivity|split; [vm_compute; reflexivity|reflexivity]]]].
    exists (p_odd ++ p_odd).
    split; [typed_prog|split; [vm_compute; intuition (try discriminate; auto)|reflexivity]].
  - split; [discriminate|vm_compute; reflexivity].
  - split; [discriminate|vm_compute; reflexivity].
  - unfold odd_growth. csplit; vm_compute; reflexivity.
Qed.

(** Appending one [[u8; 3]] to a buffer that holds one and has no spare capacity panics. *)
Theorem c12_append_refuted :
  exists prog, Forall (step_typed ex_env) prog /\
    forall P, P = dev \/ P = release ->
    in_range P ex_env ex_build prog c_init /\
    exists p, fst (run P ex_env ex_build prog c_init) =
      [Ret (RObs OUnit); Ret (RObs OUnit); Panic p].
Proof.
  exists (p_odd ++ p_odd ++ [MAppend 0 1]). split; [typed_prog|].
  intros P [-> | ->]; (split; [vm_compute; intuition (try discriminate; auto)|eexists; vm_compute; reflexivity]).
Qed.
Print Assumptions c12_append_refuted.

(** ** C13 rotation *)

Theorem c13_rotate_partial :
  forall (V : Type) (P : profile) (G : tenv) (build : tyid -> V), wf_tenv G ->
  forall b w t xs k,
  live_buffer P G build b w -> shows G b t xs -> k <= lenN xs -> t_align (G t) <= 8192 ->
  (exists b', vc_rotate_left P k b w = (Ret tt, b', w) /\ shows G b' t (rotl k xs) /\
              vc_capacity b' = vc_capacity b) /\
  (exists b', vc_rotate_right P k b w = (Ret tt, b', w) /\ shows G b' t (rotr k xs) /\
              vc_capacity b' = vc_capacity b).
Proof. exact c13_rotate_partial_fact. Qed.
Print Assumptions c13_rotate_partial.
Example c13_rotate_ex :
  live_buffer release ex_env ex_build (buf release p_arr 0) (mem release p_arr) /\
  shows ex_env (buf release p_arr 0) ty_u32x3 [1; 2]%Z /\ 1 <= lenN [1; 2]%Z /\
  t_align (ex_env ty_u32x3) <= 8192 /\ rotl 1 [1; 2]%Z = [2; 1]%Z.
Proof.
  csplit; [apply arr_live; auto|apply arr_shows; auto|vm_compute; discriminate|vm_compute; discriminate|reflexivity].
Qed.

Theorem c13_slice_rotate :
  forall (V : Type) (P : profile) (G : tenv), wf_tenv G ->
  forall t xs (vt : V) k,
  slice_ok G t xs -> k <= lenN xs ->
  slm_rotate_left P k (sl_from_slice G t xs vt) = (Ret tt, sl_from_slice G t (rotl k xs) vt) /\
  slm_rotate_right P k (sl_from_slice G t xs vt) = (Ret tt, sl_from_slice G t (rotr k xs) vt).
Proof. exact c13_slice_rotate_fact. Qed.
Print Assumptions c13_slice_rotate.
Example c13_slice_rotate_ex : slice_ok ex_env ty_u32x3 [1; 2; 3]%Z /\ 2 <= lenN [1; 2; 3]%Z.
Proof. split; [split; [discriminate|vm_compute; discriminate]|vm_compute; discriminate]. Qed.

Theorem c13_rotations_undo :
  forall (A : Type) (xs : list A) k,
  k <= lenN xs -> rotr k (rotl k xs) = xs /\ rotl k (rotr k xs) = xs.
Proof. exact c13_rotations_undo_fact. Qed.
Print Assumptions c13_rotations_undo.
Example c13_rotations_undo_ex : 2 <= lenN [1; 2; 3]%Z /\ rotl 2 [1; 2; 3]%Z = [3; 1; 2]%Z.
Proof. split; [vm_compute; discriminate|reflexivity]. Qed.

(** Alignments above 8192 are legal, but rotating a vector of such elements panics. *)
Definition p_huge : list step := [MNew (KWithType ty_huge)].
Theorem c13_rotate_refuted :
  exists b w, live_buffer release ex_env ex_build b w /\ shows ex_env b ty_huge [] /\
    vc_rotate_left release 0 b w = (Panic PUnreachable, b, w).
Proof.
  exists (buf release p_huge 0), (mem release p_huge).
  csplit; [live_example|split; [discriminate|vm_compute; reflexivity]|vm_compute; reflexivity].
Qed.
Print Assumptions c13_rotate_refuted.

(** ** C14 Out-of-range rotation panics and loses nothing *)

(** It panics, but on a vector the contents are always lost. *)
Theorem c14_rotate_out_of_range :
  forall (V : Type) (P : profile) (G : tenv) (build : tyid -> V), wf_tenv G ->
  forall b w t xs k,
  live_buffer P G build b w -> shows G b t xs -> lenN xs < k -> fits P k (t_size (G t)) ->
  t_align (G t) <= 8192 ->
  exists p b' w', vc_rotate_left P k b w = (Panic p, b', w') /\
                  vc_rotate_right P k b w = (Panic p, b', w') /\ gone G b'.
Proof. exact c14_rotate_out_of_range_fact. Qed.
Print Assumptions c14_rotate_out_of_range.
Example c14_rotate_out_of_range_ex :
  live_buffer release ex_env ex_build (buf release p_u32 0) (mem release p_u32) /\
  shows ex_env (buf release p_u32 0) ty_u32 [10; 20; 30]%Z /\ lenN [10; 20; 30]%Z < 4 /\
  fits release 4 (t_size (ex_env ty_u32)) /\ t_align (ex_env ty_u32) <= 8192.
Proof.
  csplit; [apply u32_live; auto|apply u32_shows; auto|reflexivity|left; vm_compute; discriminate|vm_compute; discriminate].
Qed.

Theorem c14_slice_rotate_out_of_range_partial :
  forall (V : Type) (P : profile) (G : tenv), wf_tenv G ->
  forall t xs (vt : V) k,
  slice_ok G t xs -> lenN xs < k -> fits P k (t_size (G t)) ->
  exists p, slm_rotate_left P k (sl_from_slice G t xs vt) = (Panic p, sl_from_slice G t xs vt) /\
            slm_rotate_right P k (sl_from_slice G t xs vt) = (Panic p, sl_from_slice G t xs vt).
Proof. exact c14_slice_rotate_out_of_range_partial_fact. Qed.
Print Assumptions c14_slice_rotate_out_of_range_partial.
Example c14_slice_rotate_ex :
  slice_ok ex_env ty_u32 [1; 2; 3]%Z /\ lenN [1; 2; 3]%Z < 4 /\ fits release 4 (t_size (ex_env ty_u32)).
Proof. csplit; [split; [discriminate|vm_compute; discriminate]|reflexivity|left; vm_compute; discriminate]. Qed.

Theorem c14_rotate_loses_contents_refuted :
  exists b w p b' w',
    live_buffer release ex_env ex_build b w /\ shows ex_env b ty_u32 [10; 20; 30]%Z /\
    vc_rotate_left release 4 b w = (Panic p, b', w') /\ vc_len b' = 0 /\ gone ex_env b'.
Proof.
  exists (buf release p_u32 0), (mem release p_u32).
  destruct (c14_rotate_out_of_range_fact N release ex_env ex_build ex_env_wf _ (mem release p_u32) ty_u32 [10; 20; 30]%Z 4
              (u32_live release ltac:(auto)) (u32_shows release ltac:(auto)) ltac:(reflexivity))
    as (p & b' & w' & HE & _ & Hg); [left; vm_compute; discriminate|vm_compute; discriminate|].
  exists p, b', w'. csplit; auto; [apply u32_live; auto|apply u32_shows; auto|].
  vm_compute in HE. injection HE as _ <- _. reflexivity.
Qed.
Print Assumptions c14_rotate_loses_contents_refuted.

(** In a release build the amount wraps around and no panic happens at all. *)
Theorem c14_slice_rotate_wraps_refuted :
  exists xs k, slice_ok ex_env ty_u32 xs /\ lenN xs < k /\
    slm_rotate_left release k (sl_from_slice ex_env ty_u32 xs tt) =
    (Ret tt, sl_from_slice ex_env ty_u32 (rotl 1 xs) tt).
Proof.
  exists [1; 2; 3]%Z, (2 ^ 62 + 1).
  csplit; [split; [discriminate|vm_compute; discriminate]|reflexivity|vm_compute; reflexivity].
Qed.
Print Assumptions c14_slice_rotate_wraps_refuted.

(** ** C15 Typed indexing *)

Theorem c15_typed_indexing :
  forall (V : Type) (P : profile) (G : tenv) (build : tyid -> V), wf_tenv G ->
  forall b w t xs t' i v,
  live_buffer P G build b w -> shows G b t xs ->
  vc_get_as G t' i b =
    match nthN xs i with
    | Some x => Ret (if t' =? t then Some x else None)
    | None => Panic PAssert
    end /\
  exists b',
    vc_set_as G t' i v b =
      (if i <? lenN xs then Ret (t' =? t) else Panic PAssert, b') /\
    shows G b' t (if t' =? t then list_set xs (N.to_nat i) v else xs) /\
    vc_capacity b' = vc_capacity b.
Proof. exact c15_typed_indexing_fact. Qed.
Print Assumptions c15_typed_indexing.
Example c15_typed_indexing_ex :
  live_buffer release ex_env ex_build (buf release p_u32 0) (mem release p_u32) /\
  shows ex_env (buf release p_u32 0) ty_u32 [10; 20; 30]%Z.
Proof. split; [apply u32_live|apply u32_shows]; auto. Qed.

(** ** C16 Iteration *)

Theorem c16_iteration :
  forall (V : Type) (P : profile) (G : tenv) (build : tyid -> V), wf_tenv G ->
  forall b w t xs,
  live_buffer P G build b w -> shows G b t xs ->
  (exists rs, vc_iter P b = Ret rs /\ Forall2 (refers G t) rs xs) /\
  vv_byte_chunks P (vc_data b) = Ret (map (enc G t) xs) /\
  (forall t' v, exists b',
     vc_iter_mut_copy P (mk_ref G build t' v) b = (Ret tt, b') /\
     shows G b' t (if t' =? t then map (fun _ => v) xs else xs)).
Proof. exact c16_iteration_fact. Qed.
Print Assumptions c16_iteration.
Example c16_iteration_ex :
  live_buffer release ex_env ex_build (buf release p_arr 0) (mem release p_arr) /\
  shows ex_env (buf release p_arr 0) ty_u32x3 [1; 2]%Z.
Proof. split; [apply arr_live|apply arr_shows]; auto. Qed.

Theorem c16_slice_iteration :
  forall (V : Type) (P : profile) (G : tenv), wf_tenv G ->
  forall t xs (vt : V),
  slice_ok G t xs ->
  sl_len P (sl_from_slice G t xs vt) = Ret (lenN xs) /\
  (exists rs, sl_iter (sl_from_slice G t xs vt) = Ret rs /\ Forall2 (refers G t) rs xs) /\
  (exists ms, slm_iter (sl_from_slice G t xs vt) = Ret ms /\
              Forall2 (fun m v => refers G t (cr_of_cm m) v) ms xs) /\
  sl_as_slice P G t (sl_from_slice G t xs vt) = Ret (Some xs).
Proof. exact c16_slice_iteration_fact. Qed.
Print Assumptions c16_slice_iteration.
Example c16_slice_iteration_ex : slice_ok ex_env ty_u32x3 [1; 2; 3]%Z.
Proof. split; [discriminate|vm_compute; discriminate]. Qed.

Theorem c16_slice_is_empty :
  forall (V : Type) (P : profile) (G : tenv), wf_tenv G ->
  forall t xs (vt : V), slice_ok G t xs ->
  sl_len P (sl_from_slice G t xs vt) = Ret (lenN xs) /\
  (sl_is_empty (sl_from_slice G t xs vt) = true <-> xs = []).
Proof. exact c16_slice_is_empty_fact. Qed.
Print Assumptions c16_slice_is_empty.
Example c16_slice_is_empty_ex : slice_ok ex_env ty_u32x3 [1; 2; 3]%Z /\ slice_ok ex_env ty_u32x3 [].
Proof. csplit; (split; [discriminate|vm_compute; discriminate]). Qed.

(** A slice of zero-sized values can be made, but has no length: len() divides by zero. *)
Theorem c16_zero_sized_slice_refuted :
  forall P, P = dev \/ P = release ->
  sl_len P (sl_from_slice ex_env ty_marker [0; 0]%Z tt) = Panic PDivZero /\
  sl_iter (sl_from_slice ex_env ty_marker [0; 0]%Z tt) = Panic PChunkZero.
Proof. intros P [-> | ->]; split; vm_compute; reflexivity. Qed.
Print Assumptions c16_zero_sized_slice_refuted.

(** ** C17 copy_from_slice *)

(** Type mismatches: see [c02_wrong_type_refused]. *)
Theorem c17_copy_from_slice_partial :
  forall (V : Type) (P : profile) (G : tenv) (build : tyid -> V), wf_tenv G ->
  forall b w t xs ys,
  live_buffer P G build b w -> shows G b t xs ->
  (lenN ys = lenN xs ->
     exists b', vc_copy_from_slice P G t ys b = (Ret true, b') /\ shows G b' t ys /\
                vc_capacity b' = vc_capacity b) /\
  (lenN ys <> lenN xs -> vc_copy_from_slice P G t ys b = (Panic PIndex, b)).
Proof. exact c17_copy_from_slice_partial_fact. Qed.
Print Assumptions c17_copy_from_slice_partial.
Example c17_copy_from_slice_ex :
  live_buffer release ex_env ex_build (buf release p_u32 0) (mem release p_u32) /\
  shows ex_env (buf release p_u32 0) ty_u32 [10; 20; 30]%Z /\ lenN [7; 8; 9]%Z = lenN [10; 20; 30]%Z /\
  lenN [7; 8; 9; 10]%Z <> lenN [10; 20; 30]%Z.
Proof. csplit; [apply u32_live; auto|apply u32_shows; auto|reflexivity|discriminate]. Qed.

(** The documentation promises that a longer slice extends the buffer; it panics. *)
Theorem c17_copy_from_slice_refuted :
  exists b w, live_buffer release ex_env ex_build b w /\ shows ex_env b ty_u32 [10; 20; 30]%Z /\
    vc_copy_from_slice release ex_env ty_u32 [7; 8; 9; 10]%Z b = (Panic PIndex, b).
Proof.
  exists (buf release p_u32 0), (mem release p_u32).
  csplit; [apply u32_live; auto|apply u32_shows; auto|vm_compute; reflexivity].
Qed.
Print Assumptions c17_copy_from_slice_refuted.

(** ** C18 fill *)

Theorem c18_fill :
  forall (V : Type) (P : profile) (G : tenv) (build : tyid -> V), wf_tenv G ->
  forall b w t xs v,
  live_buffer P G build b w -> shows G b t xs ->
  exists b', vc_fill G t v b = (Ret true, b') /\ shows G b' t (map (fun _ => v) xs) /\
             vc_len b' = vc_len b /\ vc_capacity b' = vc_capacity b.
Proof. exact c18_fill_fact. Qed.
Print Assumptions c18_fill.
Example c18_fill_ex :
  live_buffer release ex_env ex_build (buf release p_arr 0) (mem release p_arr) /\
  shows ex_env (buf release p_arr 0) ty_u32x3 [1; 2]%Z.
Proof. split; [apply arr_live|apply arr_shows]; auto. Qed.

(** ** C19 Cloned VecCopy is equal and independent *)

Theorem c19_clone :
  forall (V : Type) (P : profile) (G : tenv) (build : tyid -> V), wf_tenv G ->
  forall b w t xs,
  live_buffer P G build b w -> shows G b t xs ->
  exists b' w' i i',
    vc_clone P b w = (Ret b', w') /\ shows G b' t xs /\
    vc_len b' = vc_len b /\ vc_capacity b' = vc_capacity b /\ vc_vtable b' = vc_vtable b /\
    vv_blk (vc_data b) = Some i /\ vv_blk (vc_data b') = Some i' /\ i <> i' /\
    In (i, (vc_capacity b * t_size (G t), t_align (G t))) (w_live w') /\
    In (i', (vc_capacity b * t_size (G t), t_align (G t))) (w_live w') /\
    w_trace w' = w_trace w.
Proof. exact c19_clone_fact. Qed.
Print Assumptions c19_clone.
Example c19_clone_ex :
  live_buffer release ex_env ex_build (buf release p_arr 0) (mem release p_arr) /\
  shows ex_env (buf release p_arr 0) ty_u32x3 [1; 2]%Z.
Proof. split; [apply arr_live|apply arr_shows]; auto. Qed.

(** Steps that do not name a buffer do not change it. *)
Theorem c19_independence :
  forall (V : Type) (P : profile) (G : tenv) (build : tyid -> V),
  forall s st h b,
  get st h = Some b -> ~ touches h s -> get (snd (run_step P G build s st)) h = Some b.
Proof. exact c19_independence_fact. Qed.
Print Assumptions c19_independence.
Example c19_independence_ex :
  get (final release p_two) 0 = Some (buf release p_two 0) /\
  ~ touches 0 (MCall 1 (SFill ty_u32 0%Z)) /\ ~ touches 0 (MAppend 1 2) /\ ~ touches 0 (MClone 0).
Proof. csplit; [vm_compute; reflexivity|cbn; lia|cbn; lia|cbn; auto]. Qed.

(** ** C20 Building an empty buffer of the type of another value *)

Theorem c20_with_type_from :
  forall (V : Type) (P : profile) (G : tenv) (build : tyid -> V), wf_tenv G ->
  forall t w m,
  wf_world w -> t_size (G t) <> 0 ->
  (exists b w0 xs, live_buffer P G build b w0 /\ shows G b t xs /\ m = meta_of_vec b) \/
  (exists v, m = meta_of_copy_ref (mk_ref G build t v)) \/
  (exists xs vt, m = meta_of_slice (sl_from_slice G t xs vt)) ->
  exists b w',
    vc_with_type_from P m w = (Ret b, w') /\ shows G b t [] /\ vc_len b = 0 /\
    (forall t', vc_check t' b = (t' =? t)) /\ w_trace w' = w_trace w.
Proof. exact c20_with_type_from_fact. Qed.
Print Assumptions c20_with_type_from.
Example c20_with_type_from_ex :
  wf_world w0 /\ t_size (ex_env ty_u32x3) <> 0 /\
  exists v, meta_of_copy_ref (mk_ref ex_env ex_build ty_u32x3 5%Z) =
            meta_of_copy_ref (mk_ref ex_env ex_build ty_u32x3 v).
Proof. csplit; [apply wf_w0|discriminate|eauto]. Qed.

(** ** C21 Subslicing selects exactly the requested elements *)

Theorem c21_subslice_partial :
  forall (V : Type) (P : profile) (G : tenv), wf_tenv G ->
  forall t xs (vt : V) r,
  slice_ok G t xs -> range_fits P r (t_size (G t)) ->
  half_open r \/ (t_size (G t) = 1 /\ fresh_range r) ->
  match index_with r xs with
  | Ret (a, ys) =>
      sl_subslice P r (sl_from_slice G t xs vt) = Ret (a * t_size (G t), sl_from_slice G t ys vt)
  | _ => is_panic (sl_subslice P r (sl_from_slice G t xs vt))
  end.
Proof. exact c21_subslice_partial_fact. Qed.
Print Assumptions c21_subslice_partial.
Example c21_subslice_ex :
  slice_ok ex_env ty_u32 [1; 2; 3; 4]%Z /\ range_fits release (RRange 1 3) (t_size (ex_env ty_u32)) /\
  half_open (RRange 1 3) /\ index_with (RRange 1 3) [1; 2; 3; 4]%Z = Ret (1, [2; 3]%Z) /\
  t_size (ex_env ty_u8) = 1 /\ fresh_range (RIncl 1 2 false) /\
  index_with (RIncl 1 2 false) [1; 2; 3; 4]%Z = Ret (1, [2; 3]%Z).
Proof.
  csplit; try exact I; try reflexivity; [split; [discriminate|vm_compute; discriminate]|].
  split; left; vm_compute; discriminate.
Qed.

(** For elements of more than one byte an inclusive range loses its last element (and in a debug
    build the result is not even usable). *)
Theorem c21_inclusive_short :
  forall (V : Type) (P : profile) (G : tenv), wf_tenv G ->
  forall t xs (vt : V) a b ex,
  slice_ok G t xs -> 1 < t_size (G t) -> a <= b -> b < lenN xs ->
  exists s, sl_subslice P (RIncl a b ex) (sl_from_slice G t xs vt) = Ret (a * t_size (G t), s) /\
    sl_len P s = if debug_assertions P then Panic PDebugAssert else Ret (b - a).
Proof. exact c21_inclusive_short_fact. Qed.
Print Assumptions c21_inclusive_short.
Example c21_inclusive_short_ex :
  slice_ok ex_env ty_u32 [1; 2; 3; 4]%Z /\ 1 < t_size (ex_env ty_u32) /\ 2 < lenN [1; 2; 3; 4]%Z.
Proof. csplit; try reflexivity. split; [discriminate|vm_compute; discriminate]. Qed.

Theorem c21_inclusive_refuted :
  exists off s,
    index_with (RIncl 1 2 false) [1; 2; 3; 4]%Z = Ret (1, [2; 3]%Z) /\
    sl_subslice release (RIncl 1 2 false) (sl_from_slice ex_env ty_u32 [1; 2; 3; 4]%Z tt) = Ret (off, s) /\
    sl_as_slice release ex_env ty_u32 s = Ret (Some [2]%Z).
Proof. do 2 eexists. csplit; vm_compute; reflexivity. Qed.
Print Assumptions c21_inclusive_refuted.

(** A half-open range far out of range wraps around in a release build. *)
Theorem c21_wraps_refuted :
  exists s,
    sl_subslice release (RRange (2 ^ 62) (2 ^ 62 + 2)) (sl_from_slice ex_env ty_u32 [1; 2; 3; 4]%Z tt)
      = Ret (0, s) /\
    sl_as_slice release ex_env ty_u32 s = Ret (Some [1; 2]%Z).
Proof. eexists. split; vm_compute; reflexivity. Qed.
Print Assumptions c21_wraps_refuted.

(** ** C22 split_at and chunks_exact partition *)

Theorem c22_split_at_partial :
  forall (V : Type) (P : profile) (G : tenv), wf_tenv G ->
  forall t xs (vt : V) k,
  slice_ok G t xs -> fits P k (t_size (G t)) ->
  (k <= lenN xs ->
     exists off, sl_split_at P k (sl_from_slice G t xs vt) =
       Ret (sl_from_slice G t (firstn (N.to_nat k) xs) vt, off,
            sl_from_slice G t (skipn (N.to_nat k) xs) vt)) /\
  (lenN xs < k -> is_panic (sl_split_at P k (sl_from_slice G t xs vt))).
Proof. exact c22_split_at_partial_fact. Qed.
Print Assumptions c22_split_at_partial.
Example c22_split_at_ex :
  slice_ok ex_env ty_u32 [1; 2; 3; 4]%Z /\ fits release 3 (t_size (ex_env ty_u32)) /\ 3 <= lenN [1; 2; 3; 4]%Z.
Proof. csplit; [split; [discriminate|vm_compute; discriminate]|left; vm_compute; discriminate|vm_compute; discriminate]. Qed.

Theorem c22_chunks_exact_partial :
  forall (V : Type) (P : profile) (G : tenv), wf_tenv G ->
  forall t xs (vt : V) k,
  slice_ok G t xs -> 0 < k -> k * t_size (G t) <= usize_max ->
  exists gs, groups (N.to_nat k) xs gs /\
    sl_chunks_exact P k (sl_from_slice G t xs vt) =
      Ret (map (fun g => sl_from_slice G t g vt) gs).
Proof. exact c22_chunks_exact_partial_fact. Qed.
Print Assumptions c22_chunks_exact_partial.
Theorem groups_unique :
  forall (A : Type) k (l : list A) gs gs',
  (0 < k)%nat -> groups k l gs -> groups k l gs' -> gs = gs'.
Proof. exact groups_unique_fact. Qed.
Print Assumptions groups_unique.
Example c22_chunks_exact_ex :
  slice_ok ex_env ty_u32 [1; 2; 3; 4; 5]%Z /\ 0 < 2 /\ 2 * t_size (ex_env ty_u32) <= usize_max /\
  groups 2 [1; 2; 3; 4; 5]%Z [[1; 2]; [3; 4]]%Z.
Proof.
  csplit; [split; [discriminate|vm_compute; discriminate]|reflexivity|vm_compute; discriminate|].
  apply (groups_one 2 [1; 2]%Z [3; 4; 5]%Z); [reflexivity|].
  apply (groups_one 2 [3; 4]%Z [5]%Z); [reflexivity|]. apply groups_end. cbn. lia.
Qed.

Theorem c22_zero_chunks :
  forall (V : Type) (P : profile) (G : tenv), wf_tenv G ->
  forall t xs (vt : V),
  slice_ok G t xs -> is_panic (sl_chunks_exact P 0 (sl_from_slice G t xs vt)).
Proof. exact c22_zero_chunks_fact. Qed.
Print Assumptions c22_zero_chunks.
Example c22_zero_chunks_ex : slice_ok ex_env ty_u32 [1; 2]%Z.
Proof. split; [discriminate|vm_compute; discriminate]. Qed.

(** Both wrap around in a release build. *)
Theorem c22_split_at_refuted :
  exists k a off b,
    lenN [1; 2; 3]%Z < k /\
    sl_split_at release k (sl_from_slice ex_env ty_u32 [1; 2; 3]%Z tt) = Ret (a, off, b) /\
    sl_as_slice release ex_env ty_u32 a = Ret (Some [1]%Z).
Proof. exists (2 ^ 62 + 1). do 3 eexists. csplit; vm_compute; reflexivity. Qed.
Print Assumptions c22_split_at_refuted.

Theorem c22_chunks_exact_refuted :
  exists k cs,
    lenN [1; 2; 3]%Z < k /\
    sl_chunks_exact release k (sl_from_slice ex_env ty_u32 [1; 2; 3]%Z tt) = Ret cs /\ lenN cs = 3.
Proof. exists (2 ^ 62 + 1). eexists. csplit; vm_compute; reflexivity. Qed.
Print Assumptions c22_chunks_exact_refuted.

(** ** C23 Swapping two elements of a slice *)

Theorem c23_swap_partial :
  forall (V : Type) (P : profile) (G : tenv), wf_tenv G ->
  forall t xs (vt : V) i j,
  slice_ok G t xs -> fits P (i + 1) (t_size (G t)) -> fits P (j + 1) (t_size (G t)) ->
  (i < lenN xs -> j < lenN xs ->
     slm_swap P i j (sl_from_slice G t xs vt) = (Ret tt, sl_from_slice G t (swapN i j xs) vt)) /\
  (i <> j -> lenN xs <= i \/ lenN xs <= j ->
     exists p, slm_swap P i j (sl_from_slice G t xs vt) = (Panic p, sl_from_slice G t xs vt)).
Proof. exact c23_swap_partial_fact. Qed.
Print Assumptions c23_swap_partial.
Theorem swap_meaning :
  forall (A : Type) (xs : list A) i j k,
  i < lenN xs -> j < lenN xs ->
  nthN (swapN i j xs) k = nthN xs (if k =? i then j else if k =? j then i else k) /\
  lenN (swapN i j xs) = lenN xs.
Proof. exact swap_meaning_fact. Qed.
Print Assumptions swap_meaning.
Example c23_swap_ex :
  slice_ok ex_env ty_u32 [1; 2; 3; 4]%Z /\ fits release (3 + 1) (t_size (ex_env ty_u32)) /\
  fits release (0 + 1) (t_size (ex_env ty_u32)) /\ swapN 3 0 [1; 2; 3; 4]%Z = [4; 2; 3; 1]%Z.
Proof.
  csplit; [split; [discriminate|vm_compute; discriminate]|left; vm_compute; discriminate
          |left; vm_compute; discriminate|reflexivity].
Qed.

Theorem c23_swap_refuted :
  exists i j, 3 <= j /\
    slm_swap release i j (sl_from_slice ex_env ty_u16 [1; 2; 3]%Z tt) =
    (Ret tt, sl_from_slice ex_env ty_u16 [2; 1; 3]%Z tt).
Proof. exists 0, (2 ^ 63 + 1). split; [vm_compute; discriminate|vm_compute; reflexivity]. Qed.
Print Assumptions c23_swap_refuted.

(** ** C24 Mutable sub-views touch only their own range *)

Theorem c24_subslice_write :
  forall (V : Type) (P : profile) (G : tenv), wf_tenv G ->
  forall t xs (vt : V) a b,
  slice_ok G t xs -> a <= b -> b <= lenN xs ->
  exists off sub,
    sl_subslice P (RRange a b) (sl_from_slice G t xs vt) = Ret (off, sub) /\
    forall ys sub', lenN ys = b - a -> sl_data sub' = encs G t ys ->
      sl_put off sub' (sl_from_slice G t xs vt) =
      sl_from_slice G t (firstnN a xs ++ ys ++ skipnN b xs) vt.
Proof. exact c24_subslice_write_fact. Qed.
Print Assumptions c24_subslice_write.
Theorem c24_subslice_swap :
  forall (V : Type) (P : profile) (G : tenv), wf_tenv G ->
  forall t xs (vt : V) a b i j,
  slice_ok G t xs -> a <= b -> b <= lenN xs -> i < b - a -> j < b - a ->
  exists off sub sub',
    sl_subslice P (RRange a b) (sl_from_slice G t xs vt) = Ret (off, sub) /\
    slm_swap P i j sub = (Ret tt, sub') /\
    sl_put off sub' (sl_from_slice G t xs vt) = sl_from_slice G t (swapN (a + i) (a + j) xs) vt.
Proof. exact c24_subslice_swap_fact. Qed.
Print Assumptions c24_subslice_swap.
Example c24_subslice_ex :
  slice_ok ex_env ty_u32 [1; 2; 3; 4]%Z /\ 1 <= 3 /\ 3 <= lenN [1; 2; 3; 4]%Z /\ 0 < 3 - 1 /\ 1 < 3 - 1.
Proof. csplit; [split; [discriminate|vm_compute; discriminate]|lia|vm_compute; discriminate|lia|lia]. Qed.

Theorem c24_element_write :
  forall (V U : Type) (P : profile) (G : tenv), wf_tenv G ->
  forall t xs (vt : V) i t' v (vt' : U),
  slice_ok G t xs -> i < lenN xs ->
  slm_get_mut_copy P i (copy_ref_new G t' v vt') (sl_from_slice G t xs vt) =
    (if t' =? t then (Ret true, sl_from_slice G t (list_set xs (N.to_nat i) v) vt)
     else (Ret false, sl_from_slice G t xs vt)) /\
  slm_set_as P G t' i v (sl_from_slice G t xs vt) =
    (if t' =? t then (Ret true, sl_from_slice G t (list_set xs (N.to_nat i) v) vt)
     else (Ret false, sl_from_slice G t xs vt)).
Proof. exact c24_element_write_fact. Qed.
Print Assumptions c24_element_write.
Theorem list_set_meaning :
  forall (A : Type) (xs : list A) i v k,
  nthN (list_set xs (N.to_nat i) v) k =
    (if (k =? i) && (i <? lenN xs) then Some v else nthN xs k) /\
  lenN (list_set xs (N.to_nat i) v) = lenN xs.
Proof. exact list_set_meaning_fact. Qed.
Print Assumptions list_set_meaning.
Example c24_element_write_ex :
  slice_ok ex_env ty_u32 [1; 2; 3; 4]%Z /\ 2 < lenN [1; 2; 3; 4]%Z /\
  list_set [1; 2; 3; 4]%Z (N.to_nat 2) 9%Z = [1; 2; 9; 4]%Z.
Proof. csplit; [split; [discriminate|vm_compute; discriminate]|reflexivity|reflexivity]. Qed.

Theorem c24_update :
  forall (V : Type) (P : profile) (G : tenv), wf_tenv G ->
  forall t xs (vt : V) t' f,
  slice_ok G t xs ->
  (t' = t ->
   exists ys, slm_update P G t' f (sl_from_slice G t xs vt) = (Ret true, sl_from_slice G t ys vt) /\
     forall i, nthN ys i = option_map (f (N.to_nat i)) (nthN xs i)) /\
  (t' <> t ->
   slm_update P G t' f (sl_from_slice G t xs vt) = (Ret false, sl_from_slice G t xs vt)).
Proof. exact c24_update_fact. Qed.
Print Assumptions c24_update.
Theorem c24_iter_copy :
  forall (V U : Type) (P : profile) (G : tenv), wf_tenv G ->
  forall t xs (vt : V) t' v (vt' : U),
  slice_ok G t xs ->
  slm_iter_copy (copy_ref_new G t' v vt') (sl_from_slice G t xs vt) =
  (Ret tt, sl_from_slice G t (if t' =? t then map (fun _ => v) xs else xs) vt).
Proof. exact c24_iter_copy_fact. Qed.
Print Assumptions c24_iter_copy.
Theorem c24_split_write :
  forall (V : Type) (P : profile) (G : tenv), wf_tenv G ->
  forall t xs (vt : V) k,
  slice_ok G t xs -> k <= lenN xs ->
  exists l off r, sl_split_at P k (sl_from_slice G t xs vt) = Ret (l, off, r) /\
    (forall ys l', lenN ys = k -> sl_data l' = encs G t ys ->
       sl_put 0 l' (sl_from_slice G t xs vt) = sl_from_slice G t (ys ++ skipnN k xs) vt) /\
    (forall ys r', lenN ys = lenN xs - k -> sl_data r' = encs G t ys ->
       sl_put off r' (sl_from_slice G t xs vt) = sl_from_slice G t (firstnN k xs ++ ys) vt).
Proof. exact c24_split_write_fact. Qed.
Print Assumptions c24_split_write.
Theorem c24_chunk_write :
  forall (V : Type) (G : tenv), wf_tenv G ->
  forall t xs (vt : V) k i ys c,
  slice_ok G t xs -> (i + 1) * k <= lenN xs -> lenN ys = k -> sl_data c = encs G t ys ->
  sl_put (i * (t_size (G t) * k)) c (sl_from_slice G t xs vt) =
  sl_from_slice G t (firstnN (i * k) xs ++ ys ++ skipnN ((i + 1) * k) xs) vt.
Proof. exact c24_chunk_write_fact. Qed.
Print Assumptions c24_chunk_write.
Example c24_writes_ex :
  slice_ok ex_env ty_u32 [1; 2; 3; 4]%Z /\ ty_f32 <> ty_u32 /\ 1 <= lenN [1; 2; 3; 4]%Z /\
  (1 + 1) * 2 <= lenN [1; 2; 3; 4]%Z /\ lenN [8; 9]%Z = 2 /\
  sl_data (sl_from_slice ex_env ty_u32 [8; 9]%Z tt) = encs ex_env ty_u32 [8; 9]%Z.
Proof.
  csplit; [split; [discriminate|vm_compute; discriminate]|discriminate|vm_compute; discriminate
          |vm_compute; discriminate|reflexivity|reflexivity].
Qed.

(** ** C25 Upcasting preserves data and behaviour *)

Theorem c25_upcast :
  forall (V U : Type) (P : profile) (G : tenv) (buildV : tyid -> V) (buildU : tyid -> U) (f : V -> U),
  forall b c w,
  exists o b' w',
    run_call P G buildV c b w = (o, b', w') /\
    run_call P G buildU c (vc_upcast f b) w = (o, vc_upcast f b', w').
Proof. exact c25_upcast_fact. Qed.
Print Assumptions c25_upcast.
Theorem c25_upcast_shows :
  forall (V U : Type) (P : profile) (G : tenv) (f : V -> U),
  forall b t xs,
  shows G b t xs <-> shows G (vc_upcast f b) t xs.
Proof. exact c25_upcast_shows_fact. Qed.
Print Assumptions c25_upcast_shows.
Theorem c25_consuming :
  forall (V U : Type) (P : profile) (G : tenv) (f : V -> U),
  forall b w t,
  vc_into_vec P G t (vc_upcast f b) w = vc_into_vec P G t b w /\
  vc_drop P (vc_upcast f b) w = vc_drop P b w.
Proof. exact c25_consuming_fact. Qed.
Print Assumptions c25_consuming.
(** No hypotheses.  A concrete case: from the table [N] to the table [unit]. *)
Example c25_upcast_ex :
  fst (fst (run_call release ex_env (fun _ => tt) (SSubslice 1 3 ty_u32)
              (vc_upcast (fun _ => tt) (buf release p_u32 0)) (mem release p_u32)))
  = Ret (OVals (Some [20; 30]%Z)).
Proof. vm_compute. reflexivity. Qed.

Theorem c25_ref_upcast :
  forall (V U : Type) (G : tenv) (f : V -> U) (r : copy_ref V),
  cr_type_id (cr_upcast f r) = cr_type_id r /\ cr_vtable (cr_upcast f r) = f (cr_vtable r) /\
  cr_size (cr_upcast f r) = cr_size r /\
  (forall t, cr_downcast G t (cr_upcast f r) = cr_downcast G t r) /\
  (forall (W : Type) (m : copy_mut W), cm_copy m (cr_upcast f r) = cm_copy m r) /\
  (forall P w (W : Type) (b : veccopy W), vc_push P (cr_upcast f r) b w = vc_push P r b w) /\
  meta_of_copy_ref (cr_upcast f r) =
    Meta (m_elem (meta_of_copy_ref r)) (f (m_vtable (meta_of_copy_ref r))).
Proof. exact c25_ref_upcast_fact. Qed.
Print Assumptions c25_ref_upcast.
Theorem c25_mut_upcast :
  forall (V U : Type) (G : tenv) (f : V -> U) (m : copy_mut V),
  cm_type_id (cm_upcast f m) = cm_type_id m /\
  cr_of_cm (cm_upcast f m) = cr_upcast f (cr_of_cm m) /\
  (forall t, cm_downcast G t (cm_upcast f m) = cm_downcast G t m) /\
  (forall (W : Type) (r : copy_ref W),
     cm_copy (cm_upcast f m) r =
     match cm_copy m r with
     | Ret (Some m') => Ret (Some (cm_upcast f m')) | Ret None => Ret None
     | Panic p => Panic p | UB u => UB u | Abort => Abort
     end) /\
  (forall (W : Type) (m2 : copy_mut W),
     cm_swap (cm_upcast f m) m2 =
     let '(o, m', m2') := cm_swap m m2 in (o, cm_upcast f m', m2')).
Proof. exact c25_mut_upcast_fact. Qed.
Print Assumptions c25_mut_upcast.
Theorem c25_slice_upcast :
  forall (V U : Type) (P : profile) (G : tenv) (f : V -> U), 
  forall t xs (vt : V), sl_upcast f (sl_from_slice G t xs vt) = sl_from_slice G t xs (f vt).
Proof. exact c25_slice_upcast_fact. Qed.
Print Assumptions c25_slice_upcast.

(** ** C26 Alignment dispatch *)

Theorem c26_dispatch :
  forall a,
  (legal_align a -> eval_align a = Some a) /\ (~ legal_align a -> eval_align a = None).
Proof. exact c26_dispatch_fact. Qed.
Print Assumptions c26_dispatch.
Example c26_dispatch_ex : legal_align 64 /\ ~ legal_align 0.
Proof. split; [exists 6; split; [lia|reflexivity]|]. intros (k & _ & H). symmetry in H. now apply N.pow_nonzero in H. Qed.

Theorem c26_elements_aligned :
  forall (V : Type) (P : profile) (G : tenv) (build : tyid -> V), wf_tenv G ->
  forall b w t xs,
  live_buffer P G build b w -> shows G b t xs ->
  exists i sz,
    vv_blk (vc_data b) = Some i /\ In (i, (sz, t_align (G t))) (w_live w) /\
    lenN xs * t_size (G t) <= sz /\
    forall base k, base mod t_align (G t) = 0 ->
      (base + k * vc_element_size b) mod t_align (G t) = 0.
Proof. exact c26_elements_aligned_fact. Qed.
Print Assumptions c26_elements_aligned.
Example c26_elements_aligned_ex :
  live_buffer release ex_env ex_build (buf release p_arr 0) (mem release p_arr) /\
  shows ex_env (buf release p_arr 0) ty_u32x3 [1; 2]%Z.
Proof. split; [apply arr_live|apply arr_shows]; auto. Qed.

(** ** C27 State after a panic *)

(** Extending by an iterator whose n-th item has another type keeps the items before it. *)
Theorem c27_after_panic_partial :
  forall (V : Type) (P : profile) (G : tenv) (build : tyid -> V), wf_tenv G ->
  forall b w c p b' w',
  live_buffer P G build b w -> call_typed G c -> call_in_range P G c b ->
  run_call P G build c b w = (Panic p, b', w') ->
  (b' = b \/
   gone G b' \/
   exists t xs hint vals t1 v1 rest,
     c = SExtend hint (vals ++ (t1, v1) :: rest) /\ shows G b t xs /\
     Forall (fun p => fst p = t) vals /\ t1 <> t /\ shows G b' t (xs ++ map snd vals)) /\
  exists w'', vc_drop P b' w' = (Ret tt, w'').
Proof. exact c27_after_panic_partial_fact. Qed.
Print Assumptions c27_after_panic_partial.
Example c27_after_panic_ex :
  live_buffer release ex_env ex_build (buf release p_u32 0) (mem release p_u32) /\
  call_typed ex_env (SRotL 4) /\ call_in_range release ex_env (SRotL 4) (buf release p_u32 0) /\
  exists p b' w',
    run_call release ex_env ex_build (SRotL 4) (buf release p_u32 0) (mem release p_u32) = (Panic p, b', w').
Proof.
  csplit; [apply u32_live; auto|exact I|left; vm_compute; discriminate|].
  do 3 eexists. vm_compute. reflexivity.
Qed.

Theorem c27_after_panic_refuted :
  exists b w p b' w',
    live_buffer release ex_env ex_build b w /\ shows ex_env b ty_u32 [10; 20; 30]%Z /\
    run_call release ex_env ex_build (SExtend 0 [(ty_u32, 40%Z); (ty_f32, 1%Z)]) b w = (Panic p, b', w') /\
    shows ex_env b' ty_u32 [10; 20; 30; 40]%Z.
Proof.
  exists (buf release p_u32 0), (mem release p_u32). do 3 eexists.
  csplit; [apply u32_live; auto|apply u32_shows; auto|vm_compute; reflexivity|].
  split; [discriminate|vm_compute; reflexivity].
Qed.
Print Assumptions c27_after_panic_refuted.

(** ** C44 CopyValueMut copy and swap *)

Theorem c44_copy :
  forall (V U : Type) (G : tenv) t x (vt : V) t' v (vt' : U),
  wf_tenv G ->
  cm_copy (copy_mut_new G t x vt) (copy_ref_new G t' v vt') =
  Ret (if t =? t' then Some (copy_mut_new G t v vt) else None).
Proof. exact c44_copy_fact. Qed.
Print Assumptions c44_copy.
Theorem c44_swap :
  forall (V U : Type) (G : tenv) t x (vt : V) t' y (vt' : U),
  cm_swap (copy_mut_new G t x vt) (copy_mut_new G t' y vt') =
  if t =? t' then (Ret tt, copy_mut_new G t y vt, copy_mut_new G t' x vt')
  else (Ret tt, copy_mut_new G t x vt, copy_mut_new G t' y vt').
Proof. exact c44_swap_fact. Qed.
Print Assumptions c44_swap.
Theorem c44_reads :
  forall (V : Type) (G : tenv) t x (vt : V) t',
  wf_tenv G -> t_size (G t) <> 0 ->
  cm_downcast G t' (copy_mut_new G t x vt) = Ret (if t' =? t then Some x else None) /\
  cm_downcast_write G t' 0%Z (copy_mut_new G t x vt) =
    Ret (if t' =? t then Some (copy_mut_new G t 0%Z vt) else None).
Proof. exact c44_reads_fact. Qed.
Print Assumptions c44_reads.
Example c44_ex : wf_tenv ex_env /\ t_size (ex_env ty_u32x3) <> 0 /\ ty_u32 <> ty_f32.
Proof. csplit; [apply ex_env_wf|discriminate|discriminate]. Qed.

(** ** C54 Raw parts round trip (vectors and slices; values in PropertiesDyn.v) *)

Theorem c54_vec_raw_parts :
  forall (V : Type) (b : veccopy V),
  let '(d, vt) := vc_into_raw_parts b in vc_from_raw_parts d vt = b.
Proof. exact c54_vec_raw_parts_fact. Qed.
Print Assumptions c54_vec_raw_parts.
Theorem c54_slice_raw_parts :
  forall (V : Type) (s : slicecopy V),
  let '(data, elem, vt) := sl_into_raw_parts s in sl_from_raw_parts data elem vt = s.
Proof. exact c54_slice_raw_parts_fact. Qed.
Print Assumptions c54_slice_raw_parts.

(** ** C55 Untyped indexing of slices *)

Theorem c55_slice_get_partial :
  forall (V : Type) (P : profile) (G : tenv), wf_tenv G ->
  forall t xs (vt : V) i,
  slice_ok G t xs ->
  (forall v, nthN xs i = Some v ->
     exists r off m, sl_get P i (sl_from_slice G t xs vt) = Ret r /\ refers G t r v /\
       slm_get_mut P i (sl_from_slice G t xs vt) = Ret (off, m) /\ refers G t (cr_of_cm m) v /\
       off = i * t_size (G t)) /\
  (lenN xs <= i -> debug_assertions P = true \/ fits P (i + 1) (t_size (G t)) ->
     is_panic (sl_get P i (sl_from_slice G t xs vt)) /\
     is_panic (slm_get_mut P i (sl_from_slice G t xs vt))).
Proof. exact c55_slice_get_partial_fact. Qed.
Print Assumptions c55_slice_get_partial.
Theorem c55_typed_slice_get :
  forall (V : Type) (P : profile) (G : tenv), wf_tenv G ->
  forall t xs (vt : V) t' i,
  slice_ok G t xs ->
  sl_get_as P G t' i (sl_from_slice G t xs vt) =
  match nthN xs i with
  | Some v => Ret (if t' =? t then Some v else None)
  | None => Panic PAssert
  end.
Proof. exact c55_typed_slice_get_fact. Qed.
Print Assumptions c55_typed_slice_get.
Example c55_slice_get_ex :
  slice_ok ex_env ty_u32 [1; 2; 3]%Z /\ nthN [1; 2; 3]%Z 2 = Some 3%Z /\ lenN [1; 2; 3]%Z <= 3 /\
  fits release (3 + 1) (t_size (ex_env ty_u32)).
Proof. csplit; [split; [discriminate|vm_compute; discriminate]|reflexivity|vm_compute; discriminate|left; vm_compute; discriminate]. Qed.

Theorem c55_slice_get_refuted :
  exists i r, 3 <= i /\
    sl_get release i (sl_from_slice ex_env ty_u32 [1; 2; 3]%Z tt) = Ret r /\
    cr_downcast ex_env ty_u32 r = Ret (Some 1%Z).
Proof. exists (2 ^ 62). eexists. csplit; [vm_compute; discriminate|vm_compute; reflexivity|vm_compute; reflexivity]. Qed.
Print Assumptions c55_slice_get_refuted.

(** ** C56 Bulk copies to typed vectors *)

Theorem c56_append_copy_to_vec :
  forall (V : Type) (P : profile) (G : tenv) (build : tyid -> V), wf_tenv G ->
  forall b w t xs,
  live_buffer P G build b w -> shows G b t xs ->
  forall t' cap ys vec w1,
  t_size (G t') <> 0 -> vec_make G t' cap ys w = (Ret vec, w1) ->
  (t' = t -> N.max (N.max (v_cap vec * 2) (lenN ys + lenN xs)) (min_non_zero_cap (t_size (G t))) *
             t_size (G t) <= max_alloc (t_align (G t))) ->
  exists vec' w2,
    vc_append_copy_to_vec G t' b vec w1 = (Ret (t' =? t), vec', w2) /\
    vec_elems G t' vec' = Ret (if t' =? t then ys ++ xs else ys) /\
    (t' <> t -> vec' = vec /\ w2 = w1) /\ w_trace w2 = w_trace w1.
Proof. exact c56_append_copy_to_vec_fact. Qed.
Print Assumptions c56_append_copy_to_vec.
Example c56_append_copy_to_vec_ex :
  live_buffer release ex_env ex_build (buf release p_u32 0) (mem release p_u32) /\
  shows ex_env (buf release p_u32 0) ty_u32 [10; 20; 30]%Z /\
  exists vec w1, vec_make ex_env ty_u32 1 [5]%Z (mem release p_u32) = (Ret vec, w1) /\
    N.max (N.max (v_cap vec * 2) (1 + 3)) (min_non_zero_cap (t_size (ex_env ty_u32))) *
      t_size (ex_env ty_u32) <= max_alloc (t_align (ex_env ty_u32)).
Proof.
  csplit; [apply u32_live; auto|apply u32_shows; auto|].
  do 2 eexists. split; [vm_compute; reflexivity|vm_compute; discriminate].
Qed.

Theorem c56_copy_into_vec :
  forall (V : Type) (P : profile) (G : tenv) (build : tyid -> V), wf_tenv G ->
  forall b w t xs,
  live_buffer P G build b w -> shows G b t xs ->
  N.max (lenN xs) (min_non_zero_cap (t_size (G t))) * t_size (G t) <= max_alloc (t_align (G t)) ->
  exists vec w',
    vc_copy_into_vec G t b w = (Ret (Some vec), w') /\ vec_elems G t vec = Ret xs /\
    w_trace w' = w_trace w.
Proof. exact c56_copy_into_vec_fact. Qed.
Print Assumptions c56_copy_into_vec.
Theorem c56_copy_into_vec_other_type :
  forall (V : Type) (P : profile) (G : tenv) (build : tyid -> V), wf_tenv G ->
  forall b w t xs t',
  live_buffer P G build b w -> shows G b t xs -> t' <> t ->
  vc_copy_into_vec G t' b w = (Ret None, w).
Proof. exact c56_copy_into_vec_other_type_fact. Qed.
Print Assumptions c56_copy_into_vec_other_type.
Theorem c56_slice_append_copy_to_vec :
  forall (V : Type) (P : profile) (G : tenv), wf_tenv G ->
  forall t xs (vt : V) w t' cap ys vec w1,
  slice_ok G t xs -> wf_world w ->
  t_size (G t') <> 0 -> vec_make G t' cap ys w = (Ret vec, w1) ->
  (t' = t -> N.max (N.max (v_cap vec * 2) (lenN ys + lenN xs)) (min_non_zero_cap (t_size (G t))) *
             t_size (G t) <= max_alloc (t_align (G t))) ->
  exists vec' w2,
    sl_append_copy_to_vec P G t' (sl_from_slice G t xs vt) vec w1 = (Ret (t' =? t), vec', w2) /\
    vec_elems G t' vec' = Ret (if t' =? t then ys ++ xs else ys) /\
    (t' <> t -> vec' = vec /\ w2 = w1) /\ w_trace w2 = w_trace w1.
Proof. exact c56_slice_append_copy_to_vec_fact. Qed.
Print Assumptions c56_slice_append_copy_to_vec.
Theorem c56_slice_copy_into_vec :
  forall (V : Type) (P : profile) (G : tenv), wf_tenv G ->
  forall t xs (vt : V) w, slice_ok G t xs -> wf_world w ->
  N.max (lenN xs) (min_non_zero_cap (t_size (G t))) * t_size (G t) <= max_alloc (t_align (G t)) ->
  (exists vec w', sl_copy_into_vec P G t (sl_from_slice G t xs vt) w = (Ret (Some vec), w') /\
     vec_elems G t vec = Ret xs /\ w_trace w' = w_trace w) /\
  forall t', t' <> t -> sl_copy_into_vec P G t' (sl_from_slice G t xs vt) w = (Ret None, w).
Proof. exact c56_slice_copy_into_vec_fact. Qed.
Print Assumptions c56_slice_copy_into_vec.
Example c56_copy_into_vec_ex :
  live_buffer release ex_env ex_build (buf release p_u32 0) (mem release p_u32) /\
  shows ex_env (buf release p_u32 0) ty_u32 [10; 20; 30]%Z /\
  N.max (lenN [10; 20; 30]%Z) (min_non_zero_cap (t_size (ex_env ty_u32))) * t_size (ex_env ty_u32)
    <= max_alloc (t_align (ex_env ty_u32)) /\ ty_f32 <> ty_u32 /\
  slice_ok ex_env ty_u32 [1; 2]%Z /\ wf_world w0.
Proof.
  csplit; [apply u32_live; auto|apply u32_shows; auto|vm_compute; discriminate|discriminate
          |split; [discriminate|vm_compute; discriminate]|apply wf_w0].
Qed.

(** ** C60 push_as *)

Theorem c60_push_as :
  forall (V : Type) (P : profile) (G : tenv) (build : tyid -> V), wf_tenv G ->
  forall b w t xs v,
  live_buffer P G build b w -> shows G b t xs ->
  lenN xs < vc_capacity b \/
  N.max (min_non_zero_cap (t_size (G t))) (N.max (lenN xs * 2) (lenN xs + 1)) * t_size (G t)
    <= max_alloc (t_align (G t)) ->
  exists b' w',
    vc_push_as P G t v b w = (Ret true, b', w') /\ shows G b' t (xs ++ [v]) /\
    w_trace w' = w_trace w /\ vc_capacity b <= vc_capacity b' /\
    (lenN xs < vc_capacity b -> w' = w /\ vc_capacity b' = vc_capacity b).
Proof. exact c60_push_as_fact. Qed.
Print Assumptions c60_push_as.
Example c60_push_as_ex :
  live_buffer release ex_env ex_build (buf release p_odd 0) (mem release p_odd) /\
  shows ex_env (buf release p_odd 0) ty_u8x3 [7]%Z /\
  N.max (min_non_zero_cap (t_size (ex_env ty_u8x3))) (N.max (1 * 2) (1 + 1)) * t_size (ex_env ty_u8x3)
    <= max_alloc (t_align (ex_env ty_u8x3)).
Proof. csplit; [apply odd_live; auto|apply odd_shows; auto|vm_compute; discriminate]. Qed.

(** A full buffer that cannot grow: push_as panics and loses it. *)
Theorem c60_push_as_panics :
  forall (V : Type) (P : profile) (G : tenv) (build : tyid -> V), wf_tenv G ->
  forall b w t xs v,
  live_buffer P G build b w -> shows G b t xs ->
  vc_capacity b <= lenN xs ->
  max_alloc (t_align (G t)) <
    N.max (min_non_zero_cap (t_size (G t))) (N.max (lenN xs * 2) (lenN xs + 1)) * t_size (G t) ->
  exists p b' w', vc_push_as P G t v b w = (Panic p, b', w') /\ gone G b'.
Proof. exact c60_push_as_panics_fact. Qed.
Print Assumptions c60_push_as_panics.
Example c60_push_as_panics_ex :
  exists b w, live_buffer release big_env ex_build b w /\ shows big_env b 1 [7]%Z /\
    vc_capacity b <= lenN [7]%Z /\
    max_alloc (t_align (big_env 1)) <
      N.max (min_non_zero_cap (t_size (big_env 1))) (N.max (lenN [7]%Z * 2) (lenN [7]%Z + 1)) *
      t_size (big_env 1).
Proof.
  destruct big_live as (b & w & Hb & Hs & Hc). exists b, w.
  csplit; [exact Hb|exact Hs|rewrite Hc; vm_compute; discriminate|vm_compute; reflexivity].
Qed.

(** ** C62 clone_from on raw buffers *)

Theorem c62_clone_from_partial :
  forall (V : Type) (P : profile) (G : tenv) (build : tyid -> V), wf_tenv G ->
  forall b b' w t xs ys,
  live_pair P G build b b' w -> shows G b t xs -> shows G b' t ys ->
  room G t (vc_capacity b) (lenN ys) -> ~ odd_growth G t (vc_capacity b) (lenN ys) ->
  exists d w',
    vv_clone_from P (fst (vc_into_raw_parts b')) (fst (vc_into_raw_parts b)) w = (Ret tt, d, w') /\
    shows G (vc_from_raw_parts d (snd (vc_into_raw_parts b))) t ys /\
    vc_capacity b <= vv_cap d /\ w_trace w' = w_trace w.
Proof. exact c62_clone_from_partial_fact. Qed.
Print Assumptions c62_clone_from_partial.
Example c62_clone_from_ex :
  live_pair release ex_env ex_build (buf release p_two 0) (buf release p_two 1) (mem release p_two) /\
  shows ex_env (buf release p_two 0) ty_u32 [1; 2]%Z /\ shows ex_env (buf release p_two 1) ty_u32 [5; 6]%Z /\
  room ex_env ty_u32 (vc_capacity (buf release p_two 0)) (lenN [5; 6]%Z) /\
  ~ odd_growth ex_env ty_u32 (vc_capacity (buf release p_two 0)) (lenN [5; 6]%Z).
Proof.
  csplit; [apply two_pair; auto; lia|apply two_shows; auto|apply two_shows; auto
          |left; vm_compute; discriminate|intros (? & _); discriminate].
Qed.

(** The raw buffers of two vectors of different types, got through the safe [into_raw_parts]: the
    alignment of the target decides how the source is read, here beyond its end. *)
Theorem c62_clone_from_refuted :
  exists prog b b', let st := snd (run release ex_env ex_build prog c_init) in
    Forall (step_typed ex_env) prog /\ in_range release ex_env ex_build prog c_init /\
    get st 0 = Some b /\ shows ex_env b ty_u32 [1]%Z /\
    get st 1 = Some b' /\ shows ex_env b' ty_u8 [1; 2; 3]%Z /\
    exists d w',
      vv_clone_from release (fst (vc_into_raw_parts b')) (fst (vc_into_raw_parts b)) (c_world st) =
      (UB UbOob, d, w').
Proof.
  exists [MNew (KFromSlice ty_u32 [1]%Z); MNew (KFromSlice ty_u8 [1; 2; 3]%Z)]. do 2 eexists. cbv zeta.
  split; [typed_prog|]. split; [vm_compute; intuition (try discriminate; auto)|].
  split; [vm_compute; reflexivity|]. split; [split; [discriminate|vm_compute; reflexivity]|].
  split; [vm_compute; reflexivity|]. split; [split; [discriminate|vm_compute; reflexivity]|].
  do 2 eexists. vm_compute. reflexivity.
Qed.
Print Assumptions c62_clone_from_refuted.

(** ** C83 Whatever the position, only whole elements are reached *)

Theorem c83_any_build :
  forall (V U : Type) (P : profile) (G : tenv), wf_tenv G ->
  forall t xs (vt : V), slice_ok G t xs ->
  let s := sl_from_slice G t xs vt in
  (forall i, panics_or (sl_get P i s) (sl_get release i s)) /\
  (forall i, panics_or (slm_get_mut P i s) (slm_get_mut release i s)) /\
  (forall i (r : copy_ref U), panics_or_on s (slm_get_mut_copy P i r s) (slm_get_mut_copy release i r s)) /\
  (forall k, panics_or (sl_split_at P k s) (sl_split_at release k s)) /\
  (forall k, panics_or (sl_chunks_exact P k s) (sl_chunks_exact release k s)) /\
  (forall r, panics_or (sl_subslice P r s) (sl_subslice release r s)) /\
  (forall k, panics_or_on s (slm_rotate_left P k s) (slm_rotate_left release k s)) /\
  (forall k, panics_or_on s (slm_rotate_right P k s) (slm_rotate_right release k s)) /\
  (forall i j, panics_or_on s (slm_swap P i j s) (slm_swap release i j s)).
Proof. exact c83_any_build_fact. Qed.
Print Assumptions c83_any_build.
Example c83_any_build_ex :
  slice_ok ex_env ty_u32x3 [1; 2; 3]%Z /\
  (forall i, panics_or (sl_get dev i (sl_from_slice ex_env ty_u32x3 [1; 2; 3]%Z tt))
                       (sl_get release i (sl_from_slice ex_env ty_u32x3 [1; 2; 3]%Z tt))) /\
  is_panic (sl_get dev (2 ^ 62) (sl_from_slice ex_env ty_u32x3 [1; 2; 3]%Z tt)) /\
  ~ is_panic (sl_get release (2 ^ 62) (sl_from_slice ex_env ty_u32x3 [1; 2; 3]%Z tt)).
Proof.
  assert (H : slice_ok ex_env ty_u32x3 [1; 2; 3]%Z) by (split; [discriminate|vm_compute; discriminate]).
  csplit; [exact H| |vm_compute; exact I|vm_compute; tauto].
  exact (proj1 (c83_any_build unit unit dev ex_env ex_env_wf ty_u32x3 _ tt H)).
Qed.

(** If the size of an element divides 2^64, that is, if it is a power of two, a position [i] is taken
    for [i mod (2^64 / size)] and the call does what it does for that position. *)
Theorem c83_release_partial :
  forall (V : Type) (P : profile) (G : tenv), wf_tenv G -> unchecked P ->
  forall t xs (vt : V) m, slice_ok G t xs -> m * t_size (G t) = 2 ^ 64 ->
  let s := sl_from_slice G t xs vt in
  let sub ys := sl_from_slice G t ys vt in
  (forall i, match nthN xs (i mod m) with
     | Some v => exists r off r', sl_get P i s = Ret r /\ refers G t r v /\
                   slm_get_mut P i s = Ret (off, r') /\ refers G t (cr_of_cm r') v /\
                   off = (i mod m) * t_size (G t)
     | None => is_panic (sl_get P i s) /\ is_panic (slm_get_mut P i s)
     end) /\
  (forall k, if k mod m <=? lenN xs
     then exists off, sl_split_at P k s = Ret (sub (firstn (N.to_nat (k mod m)) xs), off,
                                               sub (skipn (N.to_nat (k mod m)) xs))
     else is_panic (sl_split_at P k s)) /\
  (forall k, if k mod m =? 0 then is_panic (sl_chunks_exact P k s)
     else exists gs, groups (N.to_nat (k mod m)) xs gs /\ sl_chunks_exact P k s = Ret (map sub gs)) /\
  (forall a b, if (a mod m <=? b mod m) && (b mod m <=? lenN xs)
     then exists off, sl_subslice P (RRange a b) s =
            Ret (off, sub (firstn (N.to_nat (b mod m - a mod m)) (skipn (N.to_nat (a mod m)) xs)))
     else is_panic (sl_subslice P (RRange a b) s)) /\
  (forall k, if k mod m <=? lenN xs
     then slm_rotate_left P k s = (Ret tt, sub (rotl (k mod m) xs)) /\
          slm_rotate_right P k s = (Ret tt, sub (rotr (k mod m) xs))
     else exists p, slm_rotate_left P k s = (Panic p, s) /\ slm_rotate_right P k s = (Panic p, s)) /\
  (forall i j, i < j ->
     slm_swap P j i s = slm_swap P i j s /\
     if (i mod m <? j mod m) && (j mod m <? lenN xs)
     then slm_swap P i j s = (Ret tt, sub (swapN (i mod m) (j mod m) xs))
     else exists p, slm_swap P i j s = (Panic p, s)).
Proof. exact c83_release_partial_fact. Qed.
Print Assumptions c83_release_partial.
Example c83_release_ex :
  unchecked release /\ slice_ok ex_env ty_u32 [1; 2; 3]%Z /\ 2 ^ 62 * t_size (ex_env ty_u32) = 2 ^ 64 /\
  nthN [1; 2; 3]%Z ((2 ^ 62 + 1) mod 2 ^ 62) = Some 2%Z /\ nthN [1; 2; 3]%Z ((2 ^ 62 - 1) mod 2 ^ 62) = None.
Proof.
  csplit; [now split|split; [discriminate|vm_compute; discriminate]|vm_compute; reflexivity|vm_compute; reflexivity|].
  replace ((2 ^ 62 - 1) mod 2 ^ 62) with 4611686018427387903 by (vm_compute; reflexivity).
  apply nth_error_None. cbn [List.length]. lia.
Qed.

(** For every other size, each slice of at least two elements has a position that yields a
    reference to the end of one element and the beginning of the next, and an amount of rotation
    that breaks all elements apart. *)
Theorem c83_torn_refuted :
  forall (V : Type) (P : profile) (G : tenv), wf_tenv G -> unchecked P ->
  forall t xs (vt : V), slice_ok G t xs -> 2 <= lenN xs ->
  ~ (exists m, m * t_size (G t) = 2 ^ 64) ->
  let s := sl_from_slice G t xs vt in
  exists k r off r' s',
    k <= usize_max /\
    sl_get P k s = Ret r /\ cr_downcast G t r = UB UbValue /\
    slm_get_mut P k s = Ret (off, r') /\ cm_downcast G t r' = UB UbValue /\
    slm_rotate_left P k s = (Ret tt, s') /\ sl_as_slice P G t s' = UB UbValue.
Proof. exact c83_torn_refuted_fact. Qed.
Print Assumptions c83_torn_refuted.
Example c83_torn_ex :
  unchecked release /\ slice_ok ex_env ty_u32x3 [1; 2]%Z /\ 2 <= lenN [1; 2]%Z /\
  ~ (exists m, m * t_size (ex_env ty_u32x3) = 2 ^ 64) /\
  exists r, sl_get release 3074457345618258603 (sl_from_slice ex_env ty_u32x3 [1; 2]%Z tt) = Ret r /\
    cr_bytes r = map (Frag ty_u32x3 1%Z) (seq 4 8) ++ map (Frag ty_u32x3 2%Z) (seq 0 4).
Proof.
  csplit; [now split|split; [discriminate|vm_compute; discriminate]|vm_compute; discriminate| |].
  - intros [m Hm]. change (t_size (ex_env ty_u32x3)) with 12 in Hm.
    apply (f_equal (fun n => n mod 3)) in Hm. replace (m * 12) with (m * 4 * 3) in Hm by lia.
    rewrite N.mod_mul in Hm by discriminate. vm_compute in Hm. discriminate.
  - eexists. split; [vm_compute; reflexivity|reflexivity].
Qed.

(** ** C84 Pushing allocates only logarithmically often *)

Theorem c84_push_as :
  forall (V : Type) (P : profile) (G : tenv) (build : tyid -> V), wf_tenv G ->
  forall b w t xs vs,
  live_buffer P G build b w -> shows G b t xs ->
  lenN (xs ++ vs) <= vc_capacity b \/
    grown (t_size (G t)) (lenN (xs ++ vs)) * t_size (G t) <= max_alloc (t_align (G t)) ->
  exists b' w' g,
    push_each (vc_push_as P G t) vs b w = (Ret true, b', w') /\ shows G b' t (xs ++ vs) /\
    w_trace w' = w_trace w /\
    allocations w w' g /\ g <= 1 + N.log2 (lenN (xs ++ vs)) /\
    (g = 0 \/ 2 ^ (g - 1) * vc_capacity b < lenN (xs ++ vs)) /\ (g = 0 -> w' = w) /\
    vc_capacity b <= vc_capacity b' /\
    vc_capacity b' <= N.max (vc_capacity b) (N.max (min_non_zero_cap (t_size (G t))) (2 * lenN (xs ++ vs))).
Proof. exact c84_push_as_fact. Qed.
Print Assumptions c84_push_as.
Example c84_push_as_ex :
  live_buffer release ex_env ex_build (buf release p_u32 0) (mem release p_u32) /\
  shows ex_env (buf release p_u32 0) ty_u32 [10; 20; 30]%Z /\
  grown (t_size (ex_env ty_u32)) (lenN ([10; 20; 30] ++ repeat 7 40)%Z) * t_size (ex_env ty_u32)
    <= max_alloc (t_align (ex_env ty_u32)) /\
  ~ lenN ([10; 20; 30] ++ repeat 7 40)%Z <= vc_capacity (buf release p_u32 0) /\
  allocations (mem release p_u32)
    (snd (push_each (vc_push_as release ex_env ty_u32) (repeat 7%Z 40) (buf release p_u32 0) (mem release p_u32))) 4.
Proof.
  csplit; [apply u32_live; auto|apply u32_shows; auto|vm_compute; discriminate|vm_compute; auto|].
  vm_compute. reflexivity.
Qed.

(** [push] of references, for the element types for which it works (C10). *)
Theorem c84_push :
  forall (V : Type) (P : profile) (G : tenv) (build : tyid -> V), wf_tenv G ->
  forall b w t xs vs,
  live_buffer P G build b w -> shows G b t xs -> t_size (G t) = t_align (G t) ->
  lenN (xs ++ vs) <= vc_capacity b \/
    grown (t_size (G t)) (lenN (xs ++ vs)) * t_size (G t) <= max_alloc (t_align (G t)) ->
  exists b' w' g,
    push_each (fun v => vc_push P (mk_ref G build t v)) vs b w = (Ret true, b', w') /\
    shows G b' t (xs ++ vs) /\ w_trace w' = w_trace w /\
    allocations w w' g /\ g <= 1 + N.log2 (lenN (xs ++ vs)) /\
    (g = 0 \/ 2 ^ (g - 1) * vc_capacity b < lenN (xs ++ vs)) /\ (g = 0 -> w' = w) /\
    vc_capacity b <= vc_capacity b' /\
    vc_capacity b' <= N.max (vc_capacity b) (N.max (min_non_zero_cap (t_size (G t))) (2 * lenN (xs ++ vs))).
Proof. exact c84_push_fact. Qed.
Print Assumptions c84_push.
Example c84_push_ex : t_size (ex_env ty_u32) = t_align (ex_env ty_u32).
Proof. reflexivity. Qed.

(** After [reserve(n)], and on a buffer made [with_capacity(n)], the first [n] pushes do not
    allocate. *)
Theorem c84_reserved :
  forall (V : Type) (P : profile) (G : tenv) (build : tyid -> V), wf_tenv G ->
  forall b w t xs n vs,
  live_buffer P G build b w -> shows G b t xs ->
  room G t (vc_capacity b) (lenN xs + n) -> ~ odd_growth G t (vc_capacity b) (lenN xs + n) ->
  lenN vs <= n ->
  exists b1 w1 b',
    vc_reserve P n b w = (Ret tt, b1, w1) /\
    push_each (vc_push_as P G t) vs b1 w1 = (Ret true, b', w1) /\
    shows G b' t (xs ++ vs) /\ vc_capacity b' = vc_capacity b1.
Proof. exact c84_reserved_fact. Qed.
Print Assumptions c84_reserved.
Theorem c84_with_capacity :
  forall (V : Type) (P : profile) (G : tenv) (build : tyid -> V), wf_tenv G ->
  forall t n vs w,
  wf_world w -> t_size (G t) <> 0 -> n * t_size (G t) <= max_alloc (t_align (G t)) -> lenN vs <= n ->
  exists b w1 b',
    vc_with_capacity G t n (build t) w = (Ret b, w1) /\
    push_each (vc_push_as P G t) vs b w1 = (Ret true, b', w1) /\
    shows G b' t vs /\ vc_capacity b' = vc_capacity b.
Proof. exact c84_with_capacity_fact. Qed.
Print Assumptions c84_with_capacity.
Example c84_reserved_ex :
  live_buffer release ex_env ex_build (buf release p_u32 0) (mem release p_u32) /\
  shows ex_env (buf release p_u32 0) ty_u32 [10; 20; 30]%Z /\
  room ex_env ty_u32 (vc_capacity (buf release p_u32 0)) (lenN [10; 20; 30]%Z + 7) /\
  ~ odd_growth ex_env ty_u32 (vc_capacity (buf release p_u32 0)) (lenN [10; 20; 30]%Z + 7) /\
  lenN [1; 2; 3; 4; 5; 6; 7]%Z <= 7 /\
  wf_world (mem release p_u32) /\ 7 * t_size (ex_env ty_u32) <= max_alloc (t_align (ex_env ty_u32)).
Proof.
  csplit; [apply u32_live; auto|apply u32_shows; auto|right; vm_compute; discriminate| |vm_compute; discriminate| |vm_compute; discriminate].
  - intros (H & _). discriminate H.
  - split; vm_compute; [|intros b [<-|[]]; reflexivity]. constructor; [intros []|constructor].
Qed.
