(** * PropertiesCopy: the properties of [VecCopy] and its slice views.

    Every theorem is closed by a lemma proved in another file.  Beside each theorem an example
    shows that a concrete case meets its hypotheses.  A theorem whose name ends in [_partial]
    proves part of the property; one ending in [_refuted] shows that the property as stated is
    false of the code.  The words used in the statements are defined in Reach.v ([live_buffer],
    [shows], [gone], [room] ...) and Spec.v (the meaning of programs on plain lists). *)

From Verif Require Import GrowFacts WrapFacts CopyFacts4 RoomFacts RoomExamples.

(** ** C01 Vec round trip *)

@@ c01_vec_round_trip
Example c01_vec_round_trip_ex :
  exists vec w1, wf_world w0 /\ t_size (ex_env ty_u32) <> 0 /\
    vec_make ex_env ty_u32 4 [10; 20; 30]%Z w0 = (Ret vec, w1) /\ v_cap vec = 4.
Proof. do 2 eexists. csplit; [apply wf_w0|discriminate|vm_compute; reflexivity|reflexivity]. Qed.

@@ c01_into_vec
Example c01_into_vec_ex :
  live_buffer release ex_env ex_build (buf release p_u32 0) (mem release p_u32) /\
  shows ex_env (buf release p_u32 0) ty_u32 [10; 20; 30]%Z.
Proof. split; [apply u32_live|apply u32_shows]; auto. Qed.

(** ** C02 Typed access is guarded by the element type *)

@@ c02_wrong_type_refused
Example c02_wrong_type_refused_ex :
  live_buffer release ex_env ex_build (buf release p_u32 0) (mem release p_u32) /\
  shows ex_env (buf release p_u32 0) ty_u32 [10; 20; 30]%Z /\ ty_f32 <> ty_u32 /\
  t_size (ex_env ty_f32) = t_size (ex_env ty_u32).
Proof. csplit; [apply u32_live; auto|apply u32_shows; auto|discriminate|reflexivity]. Qed.

@@ c02_right_type_accepted
Example c02_right_type_accepted_ex :
  live_buffer dev ex_env ex_build (buf dev p_arr 0) (mem dev p_arr) /\
  shows ex_env (buf dev p_arr 0) ty_u32x3 [1; 2]%Z.
Proof. split; [apply arr_live|apply arr_shows]; auto. Qed.

(** ** C03 VecCopy behaves as a plain list *)

@@ c03_list_refinement_partial
(** In builds with overflow checks and debug assertions there is no condition on arguments. *)
@@ c03_list_refinement_checked_partial

(** A program over several buffers that runs without panic, with what it reports. *)
Definition p_history : list step :=
  p_two ++ [MAppend 0 1; MCall 0 (SRotL 1); MClone 0; MCall 3 (SResize ty_u32 6 0%Z);
            MCall 0 (SReadAs ty_u32); MCall 3 (SReadAs ty_u32); MCall 1 SLen;
            MCall 3 (SSwap 0 5); MCall 3 (SSubslice 0 3 ty_u32); MIntoVec 3 ty_u32;
            MCall 2 (SReadAs ty_u32); MDrop 0].
Example c03_list_refinement_ex : forall P, P = dev \/ P = release ->
  Forall (step_typed ex_env) p_history /\ in_range P ex_env ex_build p_history c_init /\
  exists st, run P ex_env ex_build p_history c_init =
    (map Ret (map RObs [OUnit; OUnit; OBool true; OBool true; OUnit;
                        OBool true; OUnit; OUnit; OBool true;
                        OVals (Some [2; 5; 6; 1]%Z); OVals (Some [2; 5; 6; 1; 0; 0]%Z); ONum 0;
                        OUnit; OVals (Some [0; 5; 6]%Z); OVals (Some [0; 5; 6; 1; 0; 2]%Z);
                        OVals None; OUnit]), st).
Proof.
  intros P [-> | ->]; (csplit; [typed_prog|vm_compute; intuition (try discriminate; auto)
                              |eexists; vm_compute; reflexivity]).
Qed.

(** In a release build offsets are multiplied by the element size without overflow check: a
    rotation by an amount far out of range goes through, while on a list it is refused. *)
Theorem c03_list_refinement_refuted :
  exists prog rs st,
    Forall (step_typed ex_env) prog /\
    run release ex_env ex_build prog c_init = (map Ret rs, st) /\
    list_run ex_env prog [] = None.
Proof.
  exists [MNew (KFromSlice ty_u8x3 [1; 2]%Z); MCall 0 (SRotL 12297829382473034411)].
  exists (map RObs [OUnit; OUnit]). eexists. csplit; [typed_prog|vm_compute; reflexivity|vm_compute; reflexivity].
Qed.
Print Assumptions c03_list_refinement_refuted.

(** ** C04 VecCopy memory ledger *)

@@ c04_memory_ledger
(** The hypotheses hold of [p_history] (see C03) and of programs with caught panics. *)
Definition p_panics : list step :=
  [MNew (KFromSlice ty_u32 [1; 2; 3]%Z); MNew (KFromSlice ty_u32x3 [4; 5]%Z);
   MCall 0 (SRotL 4); MCall 1 (SPush ty_u32x3 6%Z); MCall 1 (SGetAs ty_u32x3 9);
   MCall 0 (SReadAs ty_u32); MCall 0 SLen; MNew (KWithType ty_marker); MDrop 0; MDrop 1].
Example c04_memory_ledger_ex : forall P, P = dev \/ P = release ->
  Forall (step_typed ex_env) p_panics /\ Forall (no_zero_sized_push ex_env) p_panics /\
  in_range P ex_env ex_build p_panics c_init /\
  fst (run P ex_env ex_build p_panics c_init) =
    [Ret (RObs OUnit); Ret (RObs OUnit); Panic PAssert; Panic PAssert; Panic PAssert;
     Ret (RObs (OVals None)); Ret (RObs (ONum 0)); Panic PAssert; Ret (RObs OUnit); Ret (RObs OUnit)].
Proof.
  intros P [-> | ->]; (csplit; [typed_prog|repeat (constructor; [vm_compute; auto; discriminate|]); constructor
    |vm_compute; intuition (try discriminate; auto)|vm_compute; reflexivity]).
Qed.

(** In a release build calls that are out of range are included: a rotation that wraps around and
    mixes the bytes of neighbouring elements.  The ledger is still right afterwards; reading the
    elements is undefined behaviour. *)
Definition p_wild : list step :=
  [MNew (KFromSlice ty_u8x3 [1; 2]%Z); MCall 0 (SRotL 12297829382473034411); MClone 0;
   MAppend 0 1; MCall 0 (SReserve 12297829382473034411); MDrop 1].
Example c04_memory_ledger_wild_ex :
  Forall (step_typed ex_env) (p_wild ++ [MCall 0 (SReadAs ty_u8x3)]) /\
  (let '(rs, st) := run release ex_env ex_build p_wild c_init in
   rs = [Ret (RObs OUnit); Ret (RObs OUnit); Ret (RObs OUnit); Ret (RObs (OBool true));
         Ret (RObs OUnit); Ret (RObs OUnit)] /\
   w_live (c_world st) = owned_blocks st /\ lenN (owned_blocks st) = 1) /\
  In (UB UbValue) (fst (run release ex_env ex_build (p_wild ++ [MCall 0 (SReadAs ty_u8x3)]) c_init)).
Proof.
  csplit; [typed_prog|vm_compute; auto|vm_compute; auto 10].
Qed.

(** ** C05 Safe VecCopy calls never cause undefined behaviour *)

@@ c05_no_undefined_behaviour_partial
@@ c05_no_undefined_behaviour_checked_partial
(** See [c04_memory_ledger_ex] for a program that meets the hypotheses. *)
Example c05_no_undefined_behaviour_ex : forall P, P = dev \/ P = release ->
  Forall (step_typed ex_env) p_panics /\ in_range P ex_env ex_build p_panics c_init.
Proof. intros P HP. destruct (c04_memory_ledger_ex P HP) as (H1 & _ & H2 & _). auto. Qed.

(** In every profile: a caught panic leaves a buffer of [()]; pushing a reference to a [()] onto it
    reads a chunk outside the reference. *)
Theorem c05_no_undefined_behaviour_refuted :
  exists prog, Forall (step_typed ex_env) prog /\
    forall P, P = dev \/ P = release -> In (UB UbOob) (fst (run P ex_env ex_build prog c_init)).
Proof.
  exists [MNew (KFromSlice ty_u32 [1; 2]%Z); MCall 0 (SRotL 3); MCall 0 (SPush ty_unit 0%Z)].
  split; [typed_prog|]. intros P [-> | ->]; vm_compute; auto.
Qed.
Print Assumptions c05_no_undefined_behaviour_refuted.

(** In a release build: rotating by a wrapped-around amount splits elements, and the next typed
    read sees bytes that are no value of the type. *)
Theorem c05_wrapping_rotation_refuted :
  exists prog, Forall (step_typed ex_env) prog /\
    In (UB UbValue) (fst (run release ex_env ex_build prog c_init)).
Proof.
  exists [MNew (KFromSlice ty_u8x3 [1; 2]%Z); MCall 0 (SRotL 12297829382473034411);
          MCall 0 (SReadAs ty_u8x3)].
  split; [typed_prog|]. vm_compute. auto.
Qed.
Print Assumptions c05_wrapping_rotation_refuted.

(** ** C06 Untyped indexing is bounds-checked *)

@@ c06_get_in_bounds
Example c06_get_in_bounds_ex :
  live_buffer release ex_env ex_build (buf release p_u32 0) (mem release p_u32) /\
  shows ex_env (buf release p_u32 0) ty_u32 [10; 20; 30]%Z /\ nthN [10; 20; 30]%Z 2 = Some 30%Z.
Proof. csplit; [apply u32_live; auto|apply u32_shows; auto|reflexivity]. Qed.

@@ c06_get_out_of_bounds_partial
Example c06_get_out_of_bounds_ex :
  live_buffer dev ex_env ex_build (buf dev p_u32 0) (mem dev p_u32) /\
  shows ex_env (buf dev p_u32 0) ty_u32 [10; 20; 30]%Z /\ lenN [10; 20; 30]%Z <= 3 /\
  debug_assertions dev = true.
Proof. csplit; [apply u32_live; auto|apply u32_shows; auto|vm_compute; discriminate|reflexivity]. Qed.

(** Without debug assertions an out-of-range index is undefined behaviour. *)
Theorem c06_get_out_of_bounds_refuted :
  exists b w i,
    live_buffer release ex_env ex_build b w /\ shows ex_env b ty_u32 [10; 20; 30]%Z /\
    3 <= i /\ vc_get_ref release i b = UB UbOob /\ vc_get_mut release i b = UB UbOob.
Proof.
  exists (buf release p_u32 0), (mem release p_u32), 3.
  csplit; [apply u32_live; auto|apply u32_shows; auto|lia|vm_compute; reflexivity|vm_compute; reflexivity].
Qed.
Print Assumptions c06_get_out_of_bounds_refuted.

(** ** C07 Zero-sized element types are rejected *)

@@ c07_zero_sized_rejected
Example c07_zero_sized_rejected_ex :
  t_size (ex_env ty_marker) = 0 /\ t_copy (ex_env ty_marker) = true /\
  exists vec w1, vec_make ex_env ty_marker 2 [0; 0]%Z w0 = (Ret vec, w1).
Proof. csplit; try reflexivity. do 2 eexists. vm_compute. reflexivity. Qed.

@@ c07_sized_constructors
Example c07_sized_constructors_ex :
  wf_world w0 /\ t_size (ex_env ty_u32x3) <> 0 /\
  5 * t_size (ex_env ty_u32x3) <= max_alloc (t_align (ex_env ty_u32x3)).
Proof. csplit; [apply wf_w0|discriminate|vm_compute; discriminate]. Qed.

(** ** C08 reserve guarantees room and keeps contents *)

@@ c08_reserve_partial
Example c08_reserve_ex :
  live_buffer release ex_env ex_build (buf release p_u32 0) (mem release p_u32) /\
  shows ex_env (buf release p_u32 0) ty_u32 [10; 20; 30]%Z /\
  room ex_env ty_u32 (vc_capacity (buf release p_u32 0)) (3 + 7) /\
  ~ odd_growth ex_env ty_u32 (vc_capacity (buf release p_u32 0)) (3 + 7).
Proof.
  csplit; [apply u32_live; auto|apply u32_shows; auto|right; vm_compute; discriminate|].
  intros (H & _). discriminate H.
Qed.

(** Exactly when reserve panics, and that the contents are then lost. *)
@@ c08_reserve_panics
Example c08_reserve_panics_ex :
  live_buffer release ex_env ex_build (buf release p_odd 0) (mem release p_odd) /\
  shows ex_env (buf release p_odd 0) ty_u8x3 [7]%Z /\ fits release 1 (t_size (ex_env ty_u8x3)) /\
  odd_growth ex_env ty_u8x3 (vc_capacity (buf release p_odd 0)) (1 + 1).
Proof.
  csplit; [apply odd_live; auto|apply odd_shows; auto|left; vm_compute; discriminate|].
  unfold odd_growth. csplit; reflexivity.
Qed.

(** There is room, and yet reserving one element panics and loses the buffer. *)
Theorem c08_reserve_refuted :
  exists b w xs n, 
    live_buffer release ex_env ex_build b w /\ shows ex_env b ty_u8x3 xs /\
    room ex_env ty_u8x3 (vc_capacity b) (lenN xs + n) /\
    exists p b' w', vc_reserve release n b w = (Panic p, b', w') /\ gone ex_env b'.
Proof.
  exists (buf release p_odd 0), (mem release p_odd), [7]%Z, 1.
  csplit; [apply odd_live; auto|apply odd_shows; auto|right; vm_compute; discriminate|].
  apply (c08_reserve_panics_fact N release ex_env ex_build ex_env_wf _ _ ty_u8x3 [7]%Z).
  - apply odd_live; auto.
  - apply odd_shows; auto.
  - left. vm_compute. discriminate.
  - right. unfold odd_growth. csplit; reflexivity.
Qed.
Print Assumptions c08_reserve_refuted.

(** In a release build a huge request wraps around and returns without making room. *)
Theorem c08_reserve_wraps_refuted :
  exists b w xs n b' w',
    live_buffer release ex_env ex_build b w /\ shows ex_env b ty_u32x3 xs /\
    vc_reserve release n b w = (Ret tt, b', w') /\ vc_capacity b' < lenN xs + n.
Proof.
  exists (buf release p_arr 0), (mem release p_arr), [1; 2]%Z, 12297829382473034411.
  do 2 eexists. csplit; [apply arr_live; auto|apply arr_shows; auto|vm_compute; reflexivity|vm_compute; reflexivity].
Qed.
Print Assumptions c08_reserve_wraps_refuted.

(** ** C09 resize *)

@@ c09_resize_partial
Example c09_resize_ex :
  live_buffer release ex_env ex_build (buf release p_u32 0) (mem release p_u32) /\
  shows ex_env (buf release p_u32 0) ty_u32 [10; 20; 30]%Z /\
  room ex_env ty_u32 (vc_capacity (buf release p_u32 0)) 9 /\
  ~ odd_growth ex_env ty_u32 (vc_capacity (buf release p_u32 0)) 9.
Proof.
  csplit; [apply u32_live; auto|apply u32_shows; auto|right; vm_compute; discriminate|].
  intros (H & _). discriminate H.
Qed.

@@ c09_shrinking_resize
Example c09_shrinking_resize_ex :
  live_buffer release ex_env ex_build (buf release p_odd 0) (mem release p_odd) /\
  shows ex_env (buf release p_odd 0) ty_u8x3 [7]%Z /\ 0 <= lenN [7]%Z.
Proof. csplit; [apply odd_live; auto|apply odd_shows; auto|lia]. Qed.

(** Exactly when resize panics, and that the contents are then lost. *)
@@ c09_resize_panics
Example c09_resize_panics_ex :
  live_buffer release ex_env ex_build (buf release p_odd 0) (mem release p_odd) /\
  shows ex_env (buf release p_odd 0) ty_u8x3 [7]%Z /\ fits release 2 (t_size (ex_env ty_u8x3)) /\
  odd_growth ex_env ty_u8x3 (vc_capacity (buf release p_odd 0)) 2.
Proof.
  csplit; [apply odd_live; auto|apply odd_shows; auto|left; vm_compute; discriminate|].
  unfold odd_growth. csplit; reflexivity.
Qed.

Theorem c09_resize_refuted :
  exists b w p b' w',
    live_buffer release ex_env ex_build b w /\ shows ex_env b ty_u8x3 [7]%Z /\
    room ex_env ty_u8x3 (vc_capacity b) 2 /\
    vc_resize release ex_env ty_u8x3 2 9%Z b w = (Panic p, b', w').
Proof.
  exists (buf release p_odd 0), (mem release p_odd).
  do 3 eexists. csplit; [apply odd_live; auto|apply odd_shows; auto|right; vm_compute; discriminate|vm_compute; reflexivity].
Qed.
Print Assumptions c09_resize_refuted.

(** ** C10 Pushing a value reference *)

@@ c10_push_partial
Example c10_push_ex :
  live_buffer release ex_env ex_build (buf release p_u32 0) (mem release p_u32) /\
  shows ex_env (buf release p_u32 0) ty_u32 [10; 20; 30]%Z /\
  t_size (ex_env ty_u32) = t_align (ex_env ty_u32) /\
  room ex_env ty_u32 (vc_capacity (buf release p_u32 0)) (3 + 1).
Proof. csplit; [apply u32_live; auto|apply u32_shows; auto|reflexivity|left; vm_compute; discriminate]. Qed.

@@ c10_push_other_type
Example c10_push_other_type_ex :
  live_buffer release ex_env ex_build (buf release p_u32 0) (mem release p_u32) /\
  shows ex_env (buf release p_u32 0) ty_u32 [10; 20; 30]%Z /\ ty_f32 <> ty_u32 /\ ty_u16 <> ty_u32 /\
  t_size (ex_env ty_f32) = t_size (ex_env ty_u32) /\ t_size (ex_env ty_u16) <> t_size (ex_env ty_u32).
Proof. csplit; [apply u32_live; auto|apply u32_shows; auto|discriminate|discriminate|reflexivity|discriminate]. Qed.

(** A full buffer that cannot grow: push panics and loses it. *)
@@ c10_push_full_panics
Example c10_push_full_panics_ex :
  exists b w, live_buffer release big_env ex_build b w /\ shows big_env b 1 [7]%Z /\
    ~ room big_env 1 (vc_capacity b) (lenN [7]%Z + 1).
Proof.
  destruct big_live as (b & w & Hb & Hs & Hc). exists b, w. csplit; [exact Hb|exact Hs|]. rewrite Hc.
  intros [H|H]; revert H; vm_compute; intros H; now apply H.
Qed.

(** For every element type larger than its alignment, push panics and loses the buffer. *)
@@ c10_push_never_works
Example c10_push_never_works_ex :
  live_buffer release ex_env ex_build (buf release p_arr 0) (mem release p_arr) /\
  shows ex_env (buf release p_arr 0) ty_u32x3 [1; 2]%Z /\
  t_align (ex_env ty_u32x3) < t_size (ex_env ty_u32x3).
Proof. csplit; [apply arr_live; auto|apply arr_shows; auto|reflexivity]. Qed.

Theorem c10_push_refuted :
  exists b w v p b' w',
    live_buffer dev ex_env ex_build b w /\ shows ex_env b ty_u32x3 [1; 2]%Z /\
    vc_push dev (mk_ref ex_env ex_build ty_u32x3 v) b w = (Panic p, b', w') /\ gone ex_env b'.
Proof.
  exists (buf dev p_arr 0), (mem dev p_arr), 3%Z.
  destruct (c10_push_never_works_fact N dev ex_env ex_build ex_env_wf _ (mem dev p_arr) ty_u32x3 [1; 2]%Z 3%Z
              (arr_live dev ltac:(auto)) (arr_shows dev ltac:(auto)) ltac:(reflexivity)) as (p & b' & w' & HE & Hg).
  exists p, b', w'. csplit; auto; [apply arr_live; auto|apply arr_shows; auto].
Qed.
Print Assumptions c10_push_refuted.

(** ** C11 extend and collect *)

@@ c11_extend_partial
Example c11_extend_ex :
  live_buffer release ex_env ex_build (buf release p_u32 0) (mem release p_u32) /\
  shows ex_env (buf release p_u32 0) ty_u32 [10; 20; 30]%Z /\
  t_size (ex_env ty_u32) = t_align (ex_env ty_u32) /\
  room ex_env ty_u32 (vc_capacity (buf release p_u32 0)) (3 + 2) /\ lenN [1; 2]%Z <= 2.
Proof.
  csplit; [apply u32_live; auto|apply u32_shows; auto|reflexivity|right; vm_compute; discriminate
          |vm_compute; discriminate].
Qed.

@@ c11_collect_partial
Example c11_collect_ex :
  wf_world w0 /\ t_size (ex_env ty_u32) <> 0 /\ t_size (ex_env ty_u32) = t_align (ex_env ty_u32) /\
  room ex_env ty_u32 1 (1 + 1) /\ lenN [8]%Z <= 1.
Proof. csplit; [apply wf_w0|discriminate|reflexivity|right; vm_compute; discriminate|vm_compute; discriminate]. Qed.

@@ c11_mixed_types_panic
Example c11_mixed_types_panic_ex :
  live_buffer release ex_env ex_build (buf release p_u32 0) (mem release p_u32) /\
  shows ex_env (buf release p_u32 0) ty_u32 [10; 20; 30]%Z /\
  Exists (fun p => fst p <> ty_u32) [(ty_u32, 1%Z); (ty_f32, 2%Z)].
Proof. csplit; [apply u32_live; auto|apply u32_shows; auto|right; left; discriminate]. Qed.

(** For every element type larger than its alignment, extending by anything panics. *)
@@ c11_extend_never_works
Example c11_extend_never_works_ex :
  live_buffer release ex_env ex_build (buf release p_arr 0) (mem release p_arr) /\
  shows ex_env (buf release p_arr 0) ty_u32x3 [1; 2]%Z /\
  t_align (ex_env ty_u32x3) < t_size (ex_env ty_u32x3).
Proof. csplit; [apply arr_live; auto|apply arr_shows; auto|reflexivity]. Qed.

Theorem c11_collect_refuted :
  exists w', vc_from_iter dev 1 (map (mk_ref ex_env ex_build ty_u32x3) [1; 2]%Z) w0 = (Panic PAssert, w').
Proof. eexists. vm_compute. reflexivity. Qed.
Print Assumptions c11_collect_refuted.

(** ** C12 append *)

@@ c12_append_partial
Example c12_append_ex :
  live_pair release ex_env ex_build (buf release p_two 0) (buf release p_two 1) (mem release p_two) /\
  shows ex_env (buf release p_two 0) ty_u32 [1; 2]%Z /\ shows ex_env (buf release p_two 1) ty_u32 [5; 6]%Z /\
  room ex_env ty_u32 (vc_capacity (buf release p_two 0)) (2 + 2) /\
  ~ odd_growth ex_env ty_u32 (vc_capacity (buf release p_two 0)) (2 + 2).
Proof.
  destruct (two_shows release ltac:(auto)) as (H0 & H1 & _).
  csplit; [apply two_pair; auto|exact H0|exact H1|right; vm_compute; discriminate|].
  intros (H & _). discriminate H.
Qed.

@@ c12_append_other_type
Example c12_append_other_type_ex :
  live_pair release ex_env ex_build (buf release p_two 0) (buf release p_two 2) (mem release p_two) /\
  shows ex_env (buf release p_two 0) ty_u32 [1; 2]%Z /\
  shows ex_env (buf release p_two 2) ty_u16 [9; 9; 9]%Z /\ ty_u16 <> ty_u32.
Proof.
  destruct (two_shows release ltac:(auto)) as (H0 & _ & H2).
  csplit; [apply two_pair; auto|exact H0|exact H2|discriminate].
Qed.

(** Exactly when append panics, and what is left of both buffers then. *)
@@ c12_append_panics
Example c12_append_panics_ex :
  let p := p_odd ++ p_odd in
  live_pair release ex_env ex_build (buf release p 0) (buf release p 1) (mem release p) /\
  shows ex_env (buf release p 0) ty_u8x3 [7]%Z /\ shows ex_env (buf release p 1) ty_u8x3 [7]%Z /\
  odd_growth ex_env ty_u8x3 (vc_capacity (buf release p 0)) (1 + 1).
Proof.
  cbv zeta. csplit.
  - exists (final release (p_odd ++ p_odd)), 0%nat, 1%nat.
    split; [|split; [discriminate|split; [vm_compute; reflexivity|split; [vm_compute; reflexivity|reflexivity]]]].
    exists (p_odd ++ p_odd).
    split; [typed_prog|split; [vm_compute; intuition (try discriminate; auto)|reflexivity]].
  - split; [discriminate|vm_compute; reflexivity].
  - split; [discriminate|vm_compute; reflexivity].
  - unfold odd_growth. csplit; vm_compute; reflexivity.
Qed.

(** Appending one [[u8; 3]] to a buffer that holds one and has no spare capacity panics. *)
Theorem c12_append_refuted :
  exists prog, Forall (step_typed ex_env) prog /\
    forall P, P = dev \/ P = release ->
    in_range P ex_env ex_build prog c_init /\
    exists p, fst (run P ex_env ex_build prog c_init) =
      [Ret (RObs OUnit); Ret (RObs OUnit); Panic p].
Proof.
  exists (p_odd ++ p_odd ++ [MAppend 0 1]). split; [typed_prog|].
  intros P [-> | ->]; (split; [vm_compute; intuition (try discriminate; auto)|eexists; vm_compute; reflexivity]).
Qed.
Print Assumptions c12_append_refuted.

(** ** C13 rotation *)

@@ c13_rotate_partial
Example c13_rotate_ex :
  live_buffer release ex_env ex_build (buf release p_arr 0) (mem release p_arr) /\
  shows ex_env (buf release p_arr 0) ty_u32x3 [1; 2]%Z /\ 1 <= lenN [1; 2]%Z /\
  t_align (ex_env ty_u32x3) <= 8192 /\ rotl 1 [1; 2]%Z = [2; 1]%Z.
Proof.
  csplit; [apply arr_live; auto|apply arr_shows; auto|vm_compute; discriminate|vm_compute; discriminate|reflexivity].
Qed.

@@ c13_slice_rotate
Example c13_slice_rotate_ex : slice_ok ex_env ty_u32x3 [1; 2; 3]%Z /\ 2 <= lenN [1; 2; 3]%Z.
Proof. split; [split; [discriminate|vm_compute; discriminate]|vm_compute; discriminate]. Qed.

@@ c13_rotations_undo
Example c13_rotations_undo_ex : 2 <= lenN [1; 2; 3]%Z /\ rotl 2 [1; 2; 3]%Z = [3; 1; 2]%Z.
Proof. split; [vm_compute; discriminate|reflexivity]. Qed.

(** Alignments above 8192 are legal, but rotating a vector of such elements panics. *)
Definition p_huge : list step := [MNew (KWithType ty_huge)].
Theorem c13_rotate_refuted :
  exists b w, live_buffer release ex_env ex_build b w /\ shows ex_env b ty_huge [] /\
    vc_rotate_left release 0 b w = (Panic PUnreachable, b, w).
Proof.
  exists (buf release p_huge 0), (mem release p_huge).
  csplit; [live_example|split; [discriminate|vm_compute; reflexivity]|vm_compute; reflexivity].
Qed.
Print Assumptions c13_rotate_refuted.

(** ** C14 Out-of-range rotation panics and loses nothing *)

(** It panics, but on a vector the contents are always lost. *)
@@ c14_rotate_out_of_range
Example c14_rotate_out_of_range_ex :
  live_buffer release ex_env ex_build (buf release p_u32 0) (mem release p_u32) /\
  shows ex_env (buf release p_u32 0) ty_u32 [10; 20; 30]%Z /\ lenN [10; 20; 30]%Z < 4 /\
  fits release 4 (t_size (ex_env ty_u32)) /\ t_align (ex_env ty_u32) <= 8192.
Proof.
  csplit; [apply u32_live; auto|apply u32_shows; auto|reflexivity|left; vm_compute; discriminate|vm_compute; discriminate].
Qed.

@@ c14_slice_rotate_out_of_range_partial
Example c14_slice_rotate_ex :
  slice_ok ex_env ty_u32 [1; 2; 3]%Z /\ lenN [1; 2; 3]%Z < 4 /\ fits release 4 (t_size (ex_env ty_u32)).
Proof. csplit; [split; [discriminate|vm_compute; discriminate]|reflexivity|left; vm_compute; discriminate]. Qed.

Theorem c14_rotate_loses_contents_refuted :
  exists b w p b' w',
    live_buffer release ex_env ex_build b w /\ shows ex_env b ty_u32 [10; 20; 30]%Z /\
    vc_rotate_left release 4 b w = (Panic p, b', w') /\ vc_len b' = 0 /\ gone ex_env b'.
Proof.
  exists (buf release p_u32 0), (mem release p_u32).
  destruct (c14_rotate_out_of_range_fact N release ex_env ex_build ex_env_wf _ (mem release p_u32) ty_u32 [10; 20; 30]%Z 4
              (u32_live release ltac:(auto)) (u32_shows release ltac:(auto)) ltac:(reflexivity))
    as (p & b' & w' & HE & _ & Hg); [left; vm_compute; discriminate|vm_compute; discriminate|].
  exists p, b', w'. csplit; auto; [apply u32_live; auto|apply u32_shows; auto|].
  vm_compute in HE. injection HE as _ <- _. reflexivity.
Qed.
Print Assumptions c14_rotate_loses_contents_refuted.

(** In a release build the amount wraps around and no panic happens at all. *)
Theorem c14_slice_rotate_wraps_refuted :
  exists xs k, slice_ok ex_env ty_u32 xs /\ lenN xs < k /\
    slm_rotate_left release k (sl_from_slice ex_env ty_u32 xs tt) =
    (Ret tt, sl_from_slice ex_env ty_u32 (rotl 1 xs) tt).
Proof.
  exists [1; 2; 3]%Z, (2 ^ 62 + 1).
  csplit; [split; [discriminate|vm_compute; discriminate]|reflexivity|vm_compute; reflexivity].
Qed.
Print Assumptions c14_slice_rotate_wraps_refuted.

(** ** C15 Typed indexing *)

@@ c15_typed_indexing
Example c15_typed_indexing_ex :
  live_buffer release ex_env ex_build (buf release p_u32 0) (mem release p_u32) /\
  shows ex_env (buf release p_u32 0) ty_u32 [10; 20; 30]%Z.
Proof. split; [apply u32_live|apply u32_shows]; auto. Qed.

(** ** C16 Iteration *)

@@ c16_iteration
Example c16_iteration_ex :
  live_buffer release ex_env ex_build (buf release p_arr 0) (mem release p_arr) /\
  shows ex_env (buf release p_arr 0) ty_u32x3 [1; 2]%Z.
Proof. split; [apply arr_live|apply arr_shows]; auto. Qed.

@@ c16_slice_iteration
Example c16_slice_iteration_ex : slice_ok ex_env ty_u32x3 [1; 2; 3]%Z.
Proof. split; [discriminate|vm_compute; discriminate]. Qed.

@@ c16_slice_is_empty
Example c16_slice_is_empty_ex : slice_ok ex_env ty_u32x3 [1; 2; 3]%Z /\ slice_ok ex_env ty_u32x3 [].
Proof. csplit; (split; [discriminate|vm_compute; discriminate]). Qed.

(** A slice of zero-sized values can be made, but has no length: len() divides by zero. *)
Theorem c16_zero_sized_slice_refuted :
  forall P, P = dev \/ P = release ->
  sl_len P (sl_from_slice ex_env ty_marker [0; 0]%Z tt) = Panic PDivZero /\
  sl_iter (sl_from_slice ex_env ty_marker [0; 0]%Z tt) = Panic PChunkZero.
Proof. intros P [-> | ->]; split; vm_compute; reflexivity. Qed.
Print Assumptions c16_zero_sized_slice_refuted.

(** ** C17 copy_from_slice *)

(** Type mismatches: see [c02_wrong_type_refused]. *)
@@ c17_copy_from_slice_partial
Example c17_copy_from_slice_ex :
  live_buffer release ex_env ex_build (buf release p_u32 0) (mem release p_u32) /\
  shows ex_env (buf release p_u32 0) ty_u32 [10; 20; 30]%Z /\ lenN [7; 8; 9]%Z = lenN [10; 20; 30]%Z /\
  lenN [7; 8; 9; 10]%Z <> lenN [10; 20; 30]%Z.
Proof. csplit; [apply u32_live; auto|apply u32_shows; auto|reflexivity|discriminate]. Qed.

(** The documentation promises that a longer slice extends the buffer; it panics. *)
Theorem c17_copy_from_slice_refuted :
  exists b w, live_buffer release ex_env ex_build b w /\ shows ex_env b ty_u32 [10; 20; 30]%Z /\
    vc_copy_from_slice release ex_env ty_u32 [7; 8; 9; 10]%Z b = (Panic PIndex, b).
Proof.
  exists (buf release p_u32 0), (mem release p_u32).
  csplit; [apply u32_live; auto|apply u32_shows; auto|vm_compute; reflexivity].
Qed.
Print Assumptions c17_copy_from_slice_refuted.

(** ** C18 fill *)

@@ c18_fill
Example c18_fill_ex :
  live_buffer release ex_env ex_build (buf release p_arr 0) (mem release p_arr) /\
  shows ex_env (buf release p_arr 0) ty_u32x3 [1; 2]%Z.
Proof. split; [apply arr_live|apply arr_shows]; auto. Qed.

(** ** C19 Cloned VecCopy is equal and independent *)

@@ c19_clone
Example c19_clone_ex :
  live_buffer release ex_env ex_build (buf release p_arr 0) (mem release p_arr) /\
  shows ex_env (buf release p_arr 0) ty_u32x3 [1; 2]%Z.
Proof. split; [apply arr_live|apply arr_shows]; auto. Qed.

(** Steps that do not name a buffer do not change it. *)
@@ c19_independence
Example c19_independence_ex :
  get (final release p_two) 0 = Some (buf release p_two 0) /\
  ~ touches 0 (MCall 1 (SFill ty_u32 0%Z)) /\ ~ touches 0 (MAppend 1 2) /\ ~ touches 0 (MClone 0).
Proof. csplit; [vm_compute; reflexivity|cbn; lia|cbn; lia|cbn; auto]. Qed.

(** ** C20 Building an empty buffer of the type of another value *)

@@ c20_with_type_from
Example c20_with_type_from_ex :
  wf_world w0 /\ t_size (ex_env ty_u32x3) <> 0 /\
  exists v, meta_of_copy_ref (mk_ref ex_env ex_build ty_u32x3 5%Z) =
            meta_of_copy_ref (mk_ref ex_env ex_build ty_u32x3 v).
Proof. csplit; [apply wf_w0|discriminate|eauto]. Qed.

(** ** C21 Subslicing selects exactly the requested elements *)

@@ c21_subslice_partial
Example c21_subslice_ex :
  slice_ok ex_env ty_u32 [1; 2; 3; 4]%Z /\ range_fits release (RRange 1 3) (t_size (ex_env ty_u32)) /\
  half_open (RRange 1 3) /\ index_with (RRange 1 3) [1; 2; 3; 4]%Z = Ret (1, [2; 3]%Z) /\
  t_size (ex_env ty_u8) = 1 /\ fresh_range (RIncl 1 2 false) /\
  index_with (RIncl 1 2 false) [1; 2; 3; 4]%Z = Ret (1, [2; 3]%Z).
Proof.
  csplit; try exact I; try reflexivity; [split; [discriminate|vm_compute; discriminate]|].
  split; left; vm_compute; discriminate.
Qed.

(** For elements of more than one byte an inclusive range loses its last element (and in a debug
    build the result is not even usable). *)
@@ c21_inclusive_short
Example c21_inclusive_short_ex :
  slice_ok ex_env ty_u32 [1; 2; 3; 4]%Z /\ 1 < t_size (ex_env ty_u32) /\ 2 < lenN [1; 2; 3; 4]%Z.
Proof. csplit; try reflexivity. split; [discriminate|vm_compute; discriminate]. Qed.

Theorem c21_inclusive_refuted :
  exists off s,
    index_with (RIncl 1 2 false) [1; 2; 3; 4]%Z = Ret (1, [2; 3]%Z) /\
    sl_subslice release (RIncl 1 2 false) (sl_from_slice ex_env ty_u32 [1; 2; 3; 4]%Z tt) = Ret (off, s) /\
    sl_as_slice release ex_env ty_u32 s = Ret (Some [2]%Z).
Proof. do 2 eexists. csplit; vm_compute; reflexivity. Qed.
Print Assumptions c21_inclusive_refuted.

(** A half-open range far out of range wraps around in a release build. *)
Theorem c21_wraps_refuted :
  exists s,
    sl_subslice release (RRange (2 ^ 62) (2 ^ 62 + 2)) (sl_from_slice ex_env ty_u32 [1; 2; 3; 4]%Z tt)
      = Ret (0, s) /\
    sl_as_slice release ex_env ty_u32 s = Ret (Some [1; 2]%Z).
Proof. eexists. split; vm_compute; reflexivity. Qed.
Print Assumptions c21_wraps_refuted.

(** ** C22 split_at and chunks_exact partition *)

@@ c22_split_at_partial
Example c22_split_at_ex :
  slice_ok ex_env ty_u32 [1; 2; 3; 4]%Z /\ fits release 3 (t_size (ex_env ty_u32)) /\ 3 <= lenN [1; 2; 3; 4]%Z.
Proof. csplit; [split; [discriminate|vm_compute; discriminate]|left; vm_compute; discriminate|vm_compute; discriminate]. Qed.

@@ c22_chunks_exact_partial
@@ groups_unique
Example c22_chunks_exact_ex :
  slice_ok ex_env ty_u32 [1; 2; 3; 4; 5]%Z /\ 0 < 2 /\ 2 * t_size (ex_env ty_u32) <= usize_max /\
  groups 2 [1; 2; 3; 4; 5]%Z [[1; 2]; [3; 4]]%Z.
Proof.
  csplit; [split; [discriminate|vm_compute; discriminate]|reflexivity|vm_compute; discriminate|].
  apply (groups_one 2 [1; 2]%Z [3; 4; 5]%Z); [reflexivity|].
  apply (groups_one 2 [3; 4]%Z [5]%Z); [reflexivity|]. apply groups_end. cbn. lia.
Qed.

@@ c22_zero_chunks
Example c22_zero_chunks_ex : slice_ok ex_env ty_u32 [1; 2]%Z.
Proof. split; [discriminate|vm_compute; discriminate]. Qed.

(** Both wrap around in a release build. *)
Theorem c22_split_at_refuted :
  exists k a off b,
    lenN [1; 2; 3]%Z < k /\
    sl_split_at release k (sl_from_slice ex_env ty_u32 [1; 2; 3]%Z tt) = Ret (a, off, b) /\
    sl_as_slice release ex_env ty_u32 a = Ret (Some [1]%Z).
Proof. exists (2 ^ 62 + 1). do 3 eexists. csplit; vm_compute; reflexivity. Qed.
Print Assumptions c22_split_at_refuted.

Theorem c22_chunks_exact_refuted :
  exists k cs,
    lenN [1; 2; 3]%Z < k /\
    sl_chunks_exact release k (sl_from_slice ex_env ty_u32 [1; 2; 3]%Z tt) = Ret cs /\ lenN cs = 3.
Proof. exists (2 ^ 62 + 1). eexists. csplit; vm_compute; reflexivity. Qed.
Print Assumptions c22_chunks_exact_refuted.

(** ** C23 Swapping two elements of a slice *)

@@ c23_swap_partial
@@ swap_meaning
Example c23_swap_ex :
  slice_ok ex_env ty_u32 [1; 2; 3; 4]%Z /\ fits release (3 + 1) (t_size (ex_env ty_u32)) /\
  fits release (0 + 1) (t_size (ex_env ty_u32)) /\ swapN 3 0 [1; 2; 3; 4]%Z = [4; 2; 3; 1]%Z.
Proof.
  csplit; [split; [discriminate|vm_compute; discriminate]|left; vm_compute; discriminate
          |left; vm_compute; discriminate|reflexivity].
Qed.

Theorem c23_swap_refuted :
  exists i j, 3 <= j /\
    slm_swap release i j (sl_from_slice ex_env ty_u16 [1; 2; 3]%Z tt) =
    (Ret tt, sl_from_slice ex_env ty_u16 [2; 1; 3]%Z tt).
Proof. exists 0, (2 ^ 63 + 1). split; [vm_compute; discriminate|vm_compute; reflexivity]. Qed.
Print Assumptions c23_swap_refuted.

(** ** C24 Mutable sub-views touch only their own range *)

@@ c24_subslice_write
@@ c24_subslice_swap
Example c24_subslice_ex :
  slice_ok ex_env ty_u32 [1; 2; 3; 4]%Z /\ 1 <= 3 /\ 3 <= lenN [1; 2; 3; 4]%Z /\ 0 < 3 - 1 /\ 1 < 3 - 1.
Proof. csplit; [split; [discriminate|vm_compute; discriminate]|lia|vm_compute; discriminate|lia|lia]. Qed.

@@ c24_element_write
@@ list_set_meaning
Example c24_element_write_ex :
  slice_ok ex_env ty_u32 [1; 2; 3; 4]%Z /\ 2 < lenN [1; 2; 3; 4]%Z /\
  list_set [1; 2; 3; 4]%Z (N.to_nat 2) 9%Z = [1; 2; 9; 4]%Z.
Proof. csplit; [split; [discriminate|vm_compute; discriminate]|reflexivity|reflexivity]. Qed.

@@ c24_update
@@ c24_iter_copy
@@ c24_split_write
@@ c24_chunk_write
Example c24_writes_ex :
  slice_ok ex_env ty_u32 [1; 2; 3; 4]%Z /\ ty_f32 <> ty_u32 /\ 1 <= lenN [1; 2; 3; 4]%Z /\
  (1 + 1) * 2 <= lenN [1; 2; 3; 4]%Z /\ lenN [8; 9]%Z = 2 /\
  sl_data (sl_from_slice ex_env ty_u32 [8; 9]%Z tt) = encs ex_env ty_u32 [8; 9]%Z.
Proof.
  csplit; [split; [discriminate|vm_compute; discriminate]|discriminate|vm_compute; discriminate
          |vm_compute; discriminate|reflexivity|reflexivity].
Qed.

(** ** C25 Upcasting preserves data and behaviour *)

@@ c25_upcast
@@ c25_upcast_shows
@@ c25_consuming
(** No hypotheses.  A concrete case: from the table [N] to the table [unit]. *)
Example c25_upcast_ex :
  fst (fst (run_call release ex_env (fun _ => tt) (SSubslice 1 3 ty_u32)
              (vc_upcast (fun _ => tt) (buf release p_u32 0)) (mem release p_u32)))
  = Ret (OVals (Some [20; 30]%Z)).
Proof. vm_compute. reflexivity. Qed.

@@ c25_ref_upcast
@@ c25_mut_upcast
@@ c25_slice_upcast

(** ** C26 Alignment dispatch *)

@@ c26_dispatch
Example c26_dispatch_ex : legal_align 64 /\ ~ legal_align 0.
Proof. split; [exists 6; split; [lia|reflexivity]|]. intros (k & _ & H). symmetry in H. now apply N.pow_nonzero in H. Qed.

@@ c26_elements_aligned
Example c26_elements_aligned_ex :
  live_buffer release ex_env ex_build (buf release p_arr 0) (mem release p_arr) /\
  shows ex_env (buf release p_arr 0) ty_u32x3 [1; 2]%Z.
Proof. split; [apply arr_live|apply arr_shows]; auto. Qed.

(** ** C27 State after a panic *)

(** Extending by an iterator whose n-th item has another type keeps the items before it. *)
@@ c27_after_panic_partial
Example c27_after_panic_ex :
  live_buffer release ex_env ex_build (buf release p_u32 0) (mem release p_u32) /\
  call_typed ex_env (SRotL 4) /\ call_in_range release ex_env (SRotL 4) (buf release p_u32 0) /\
  exists p b' w',
    run_call release ex_env ex_build (SRotL 4) (buf release p_u32 0) (mem release p_u32) = (Panic p, b', w').
Proof.
  csplit; [apply u32_live; auto|exact I|left; vm_compute; discriminate|].
  do 3 eexists. vm_compute. reflexivity.
Qed.

Theorem c27_after_panic_refuted :
  exists b w p b' w',
    live_buffer release ex_env ex_build b w /\ shows ex_env b ty_u32 [10; 20; 30]%Z /\
    run_call release ex_env ex_build (SExtend 0 [(ty_u32, 40%Z); (ty_f32, 1%Z)]) b w = (Panic p, b', w') /\
    shows ex_env b' ty_u32 [10; 20; 30; 40]%Z.
Proof.
  exists (buf release p_u32 0), (mem release p_u32). do 3 eexists.
  csplit; [apply u32_live; auto|apply u32_shows; auto|vm_compute; reflexivity|].
  split; [discriminate|vm_compute; reflexivity].
Qed.
Print Assumptions c27_after_panic_refuted.

(** ** C44 CopyValueMut copy and swap *)

@@ c44_copy
@@ c44_swap
@@ c44_reads
Example c44_ex : wf_tenv ex_env /\ t_size (ex_env ty_u32x3) <> 0 /\ ty_u32 <> ty_f32.
Proof. csplit; [apply ex_env_wf|discriminate|discriminate]. Qed.

(** ** C54 Raw parts round trip (vectors and slices; values in PropertiesDyn.v) *)

@@ c54_vec_raw_parts
@@ c54_slice_raw_parts

(** ** C55 Untyped indexing of slices *)

@@ c55_slice_get_partial
@@ c55_typed_slice_get
Example c55_slice_get_ex :
  slice_ok ex_env ty_u32 [1; 2; 3]%Z /\ nthN [1; 2; 3]%Z 2 = Some 3%Z /\ lenN [1; 2; 3]%Z <= 3 /\
  fits release (3 + 1) (t_size (ex_env ty_u32)).
Proof. csplit; [split; [discriminate|vm_compute; discriminate]|reflexivity|vm_compute; discriminate|left; vm_compute; discriminate]. Qed.

Theorem c55_slice_get_refuted :
  exists i r, 3 <= i /\
    sl_get release i (sl_from_slice ex_env ty_u32 [1; 2; 3]%Z tt) = Ret r /\
    cr_downcast ex_env ty_u32 r = Ret (Some 1%Z).
Proof. exists (2 ^ 62). eexists. csplit; [vm_compute; discriminate|vm_compute; reflexivity|vm_compute; reflexivity]. Qed.
Print Assumptions c55_slice_get_refuted.

(** ** C56 Bulk copies to typed vectors *)

@@ c56_append_copy_to_vec
Example c56_append_copy_to_vec_ex :
  live_buffer release ex_env ex_build (buf release p_u32 0) (mem release p_u32) /\
  shows ex_env (buf release p_u32 0) ty_u32 [10; 20; 30]%Z /\
  exists vec w1, vec_make ex_env ty_u32 1 [5]%Z (mem release p_u32) = (Ret vec, w1) /\
    N.max (N.max (v_cap vec * 2) (1 + 3)) (min_non_zero_cap (t_size (ex_env ty_u32))) *
      t_size (ex_env ty_u32) <= max_alloc (t_align (ex_env ty_u32)).
Proof.
  csplit; [apply u32_live; auto|apply u32_shows; auto|].
  do 2 eexists. split; [vm_compute; reflexivity|vm_compute; discriminate].
Qed.

@@ c56_copy_into_vec
@@ c56_copy_into_vec_other_type
@@ c56_slice_append_copy_to_vec
@@ c56_slice_copy_into_vec
Example c56_copy_into_vec_ex :
  live_buffer release ex_env ex_build (buf release p_u32 0) (mem release p_u32) /\
  shows ex_env (buf release p_u32 0) ty_u32 [10; 20; 30]%Z /\
  N.max (lenN [10; 20; 30]%Z) (min_non_zero_cap (t_size (ex_env ty_u32))) * t_size (ex_env ty_u32)
    <= max_alloc (t_align (ex_env ty_u32)) /\ ty_f32 <> ty_u32 /\
  slice_ok ex_env ty_u32 [1; 2]%Z /\ wf_world w0.
Proof.
  csplit; [apply u32_live; auto|apply u32_shows; auto|vm_compute; discriminate|discriminate
          |split; [discriminate|vm_compute; discriminate]|apply wf_w0].
Qed.

(** ** C60 push_as *)

@@ c60_push_as
Example c60_push_as_ex :
  live_buffer release ex_env ex_build (buf release p_odd 0) (mem release p_odd) /\
  shows ex_env (buf release p_odd 0) ty_u8x3 [7]%Z /\
  N.max (min_non_zero_cap (t_size (ex_env ty_u8x3))) (N.max (1 * 2) (1 + 1)) * t_size (ex_env ty_u8x3)
    <= max_alloc (t_align (ex_env ty_u8x3)).
Proof. csplit; [apply odd_live; auto|apply odd_shows; auto|vm_compute; discriminate]. Qed.

(** A full buffer that cannot grow: push_as panics and loses it. *)
@@ c60_push_as_panics
Example c60_push_as_panics_ex :
  exists b w, live_buffer release big_env ex_build b w /\ shows big_env b 1 [7]%Z /\
    vc_capacity b <= lenN [7]%Z /\
    max_alloc (t_align (big_env 1)) <
      N.max (min_non_zero_cap (t_size (big_env 1))) (N.max (lenN [7]%Z * 2) (lenN [7]%Z + 1)) *
      t_size (big_env 1).
Proof.
  destruct big_live as (b & w & Hb & Hs & Hc). exists b, w.
  csplit; [exact Hb|exact Hs|rewrite Hc; vm_compute; discriminate|vm_compute; reflexivity].
Qed.

(** ** C62 clone_from on raw buffers *)

@@ c62_clone_from_partial
Example c62_clone_from_ex :
  live_pair release ex_env ex_build (buf release p_two 0) (buf release p_two 1) (mem release p_two) /\
  shows ex_env (buf release p_two 0) ty_u32 [1; 2]%Z /\ shows ex_env (buf release p_two 1) ty_u32 [5; 6]%Z /\
  room ex_env ty_u32 (vc_capacity (buf release p_two 0)) (lenN [5; 6]%Z) /\
  ~ odd_growth ex_env ty_u32 (vc_capacity (buf release p_two 0)) (lenN [5; 6]%Z).
Proof.
  csplit; [apply two_pair; auto; lia|apply two_shows; auto|apply two_shows; auto
          |left; vm_compute; discriminate|intros (? & _); discriminate].
Qed.

(** The raw buffers of two vectors of different types, got through the safe [into_raw_parts]: the
    alignment of the target decides how the source is read, here beyond its end. *)
Theorem c62_clone_from_refuted :
  exists prog b b', let st := snd (run release ex_env ex_build prog c_init) in
    Forall (step_typed ex_env) prog /\ in_range release ex_env ex_build prog c_init /\
    get st 0 = Some b /\ shows ex_env b ty_u32 [1]%Z /\
    get st 1 = Some b' /\ shows ex_env b' ty_u8 [1; 2; 3]%Z /\
    exists d w',
      vv_clone_from release (fst (vc_into_raw_parts b')) (fst (vc_into_raw_parts b)) (c_world st) =
      (UB UbOob, d, w').
Proof.
  exists [MNew (KFromSlice ty_u32 [1]%Z); MNew (KFromSlice ty_u8 [1; 2; 3]%Z)]. do 2 eexists. cbv zeta.
  split; [typed_prog|]. split; [vm_compute; intuition (try discriminate; auto)|].
  split; [vm_compute; reflexivity|]. split; [split; [discriminate|vm_compute; reflexivity]|].
  split; [vm_compute; reflexivity|]. split; [split; [discriminate|vm_compute; reflexivity]|].
  do 2 eexists. vm_compute. reflexivity.
Qed.
Print Assumptions c62_clone_from_refuted.

(** ** C83 Whatever the position, only whole elements are reached *)

@@ c83_any_build
Example c83_any_build_ex :
  slice_ok ex_env ty_u32x3 [1; 2; 3]%Z /\
  (forall i, panics_or (sl_get dev i (sl_from_slice ex_env ty_u32x3 [1; 2; 3]%Z tt))
                       (sl_get release i (sl_from_slice ex_env ty_u32x3 [1; 2; 3]%Z tt))) /\
  is_panic (sl_get dev (2 ^ 62) (sl_from_slice ex_env ty_u32x3 [1; 2; 3]%Z tt)) /\
  ~ is_panic (sl_get release (2 ^ 62) (sl_from_slice ex_env ty_u32x3 [1; 2; 3]%Z tt)).
Proof.
  assert (H : slice_ok ex_env ty_u32x3 [1; 2; 3]%Z) by (split; [discriminate|vm_compute; discriminate]).
  csplit; [exact H| |vm_compute; exact I|vm_compute; tauto].
  exact (proj1 (c83_any_build unit unit dev ex_env ex_env_wf ty_u32x3 _ tt H)).
Qed.

(** If the size of an element divides 2^64, that is, if it is a power of two, a position [i] is taken
    for [i mod (2^64 / size)] and the call does what it does for that position. *)
@@ c83_release_partial
Example c83_release_ex :
  unchecked release /\ slice_ok ex_env ty_u32 [1; 2; 3]%Z /\ 2 ^ 62 * t_size (ex_env ty_u32) = 2 ^ 64 /\
  nthN [1; 2; 3]%Z ((2 ^ 62 + 1) mod 2 ^ 62) = Some 2%Z /\ nthN [1; 2; 3]%Z ((2 ^ 62 - 1) mod 2 ^ 62) = None.
Proof.
  csplit; [now split|split; [discriminate|vm_compute; discriminate]|vm_compute; reflexivity|vm_compute; reflexivity|].
  replace ((2 ^ 62 - 1) mod 2 ^ 62) with 4611686018427387903 by (vm_compute; reflexivity).
  apply nth_error_None. cbn [List.length]. lia.
Qed.

(** For every other size, each slice of at least two elements has a position that yields a
    reference to the end of one element and the beginning of the next, and an amount of rotation
    that breaks all elements apart. *)
@@ c83_torn_refuted
Example c83_torn_ex :
  unchecked release /\ slice_ok ex_env ty_u32x3 [1; 2]%Z /\ 2 <= lenN [1; 2]%Z /\
  ~ (exists m, m * t_size (ex_env ty_u32x3) = 2 ^ 64) /\
  exists r, sl_get release 3074457345618258603 (sl_from_slice ex_env ty_u32x3 [1; 2]%Z tt) = Ret r /\
    cr_bytes r = map (Frag ty_u32x3 1%Z) (seq 4 8) ++ map (Frag ty_u32x3 2%Z) (seq 0 4).
Proof.
  csplit; [now split|split; [discriminate|vm_compute; discriminate]|vm_compute; discriminate| |].
  - intros [m Hm]. change (t_size (ex_env ty_u32x3)) with 12 in Hm.
    apply (f_equal (fun n => n mod 3)) in Hm. replace (m * 12) with (m * 4 * 3) in Hm by lia.
    rewrite N.mod_mul in Hm by discriminate. vm_compute in Hm. discriminate.
  - eexists. split; [vm_compute; reflexivity|reflexivity].
Qed.

(** ** C84 Pushing allocates only logarithmically often *)

@@ c84_push_as
Example c84_push_as_ex :
  live_buffer release ex_env ex_build (buf release p_u32 0) (mem release p_u32) /\
  shows ex_env (buf release p_u32 0) ty_u32 [10; 20; 30]%Z /\
  grown (t_size (ex_env ty_u32)) (lenN ([10; 20; 30] ++ repeat 7 40)%Z) * t_size (ex_env ty_u32)
    <= max_alloc (t_align (ex_env ty_u32)) /\
  ~ lenN ([10; 20; 30] ++ repeat 7 40)%Z <= vc_capacity (buf release p_u32 0) /\
  allocations (mem release p_u32)
    (snd (push_each (vc_push_as release ex_env ty_u32) (repeat 7%Z 40) (buf release p_u32 0) (mem release p_u32))) 4.
Proof.
  csplit; [apply u32_live; auto|apply u32_shows; auto|vm_compute; discriminate|vm_compute; auto|].
  vm_compute. reflexivity.
Qed.

(** [push] of references, for the element types for which it works (C10). *)
@@ c84_push
Example c84_push_ex : t_size (ex_env ty_u32) = t_align (ex_env ty_u32).
Proof. reflexivity. Qed.

(** After [reserve(n)], and on a buffer made [with_capacity(n)], the first [n] pushes do not
    allocate. *)
@@ c84_reserved
@@ c84_with_capacity
Example c84_reserved_ex :
  live_buffer release ex_env ex_build (buf release p_u32 0) (mem release p_u32) /\
  shows ex_env (buf release p_u32 0) ty_u32 [10; 20; 30]%Z /\
  room ex_env ty_u32 (vc_capacity (buf release p_u32 0)) (lenN [10; 20; 30]%Z + 7) /\
  ~ odd_growth ex_env ty_u32 (vc_capacity (buf release p_u32 0)) (lenN [10; 20; 30]%Z + 7) /\
  lenN [1; 2; 3; 4; 5; 6; 7]%Z <= 7 /\
  wf_world (mem release p_u32) /\ 7 * t_size (ex_env ty_u32) <= max_alloc (t_align (ex_env ty_u32)).
Proof.
  csplit; [apply u32_live; auto|apply u32_shows; auto|right; vm_compute; discriminate| |vm_compute; discriminate| |vm_compute; discriminate].
  - intros (H & _). discriminate H.
  - split; vm_compute; [|intros b [<-|[]]; reflexivity]. constructor; [intros []|constructor].
Qed.
