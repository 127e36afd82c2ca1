(** * PropertiesDyn: the properties of [VecDyn], slices of owned elements and owned values.

    Every theorem is closed by a lemma proved in another file.  Beside each theorem an example
    shows that a concrete case meets its hypotheses.  A theorem whose name ends in [_partial]
    proves part of the property; one ending in [_refuted] shows that the property as stated is
    false of the code.  The words used in the statements are defined in DynReach.v ([live_vec],
    [contents], [lost_vec], [value_is], [events], [freed] ...) and DynSpec.v (the meaning of programs
    on plain lists).  The vectors and values of the examples are those of [p_dyn] in DynExamples.v. *)

From Verif Require Import GrowFacts GrowDynFacts WrapDynFacts DynPanicFacts RoomDynFacts ConvFacts CloneFacts LostFacts LoudFacts RoomDynExamples.

(** Shows that the objects of [p_dyn] are live and hold what they hold. *)
Ltac hold :=
  csplit;
  lazymatch goal with
  | |- types_ok _ => apply dyn_env_ok
  | |- live_vec _ _ _ _ => apply dvec_live; [auto|lia]
  | |- live_vecs _ _ _ _ _ => apply dvecs_live; [auto|lia|lia|lia]
  | |- live_val _ _ _ _ => apply dval_live; [auto|lia]
  | |- live_vals _ _ _ _ _ => apply dvals_live; [auto|lia|lia|lia]
  | |- live_vec_val _ _ _ _ _ => apply dvec_val_live; [auto|lia|lia]
  | |- live_ref _ _ _ _ => apply dref_live; [auto|tauto]
  | |- live_vec_ref _ _ _ _ _ => apply dvec_ref_live; [auto|tauto|tauto]
  | |- live_val_ref _ _ _ _ _ => apply dval_ref_live; [auto|tauto|tauto]
  | |- contents _ _ _ _ => split; [discriminate|vm_compute; reflexivity]
  | |- value_is _ _ _ _ => repeat split; vm_compute; reflexivity
  | |- ref_is _ _ _ _ => split; vm_compute; reflexivity
  | |- room _ _ _ _ => vm_compute; first [left; discriminate | right; discriminate]
  | |- slice_ok _ _ _ => split; [discriminate|vm_compute; discriminate]
  | |- wf_world w0 => apply wf_w0
  | |- ~ odd_growth _ _ _ _ => intros (? & ? & ? & ?); discriminate
  | |- fits _ _ _ => left; vm_compute; discriminate
  | |- is_value _ _ _ => vm_compute; first [reflexivity|discriminate|auto]
  | |- _ <> _ => vm_compute; discriminate
  | |- _ <= _ => vm_compute; discriminate
  | |- _ < _ => vm_compute; reflexivity
  | |- exists _, _ = _ => eexists; vm_compute; reflexivity
  | |- _ = _ => vm_compute; reflexivity
  end.

(** ** C20 Building an empty vector of the type of something else *)

@@ c20_vecdyn_with_type_from
(** The hypotheses of [taken_from] for four sources. *)
Example c20_vecdyn_with_type_from_ex :
  types_ok dyn_env /\ wf_world w0 /\ t_size (dyn_env ty_string) <> 0 /\
  live_vec release dyn_env (dvec release 1) (dmem release) /\
  contents dyn_env (dvec release 1) ty_string [1; 2; 3]%Z /\
  live_ref release dyn_env (dref release (FromVec 1 2)) (dmem release) /\
  ref_is dyn_env (dref release (FromVec 1 2)) ty_string 3%Z /\
  live_val release dyn_env (dval release 5) (dmem release) /\
  value_is dyn_env (dval release 5) ty_string 7%Z.
Proof. hold. Qed.

(** ** C25 Upcasting vectors, references and values *)

@@ c25_vecdyn_upcast
@@ c25_value_ref_upcast
@@ c25_value_mut_upcast
@@ c25_value_upcast
(** A base table is the same table under another name; here it is the table itself. *)
Example c25_value_upcast_ex :
  types_ok dyn_env /\ live_val release dyn_env (dval release 5) (dmem release) /\
  value_is dyn_env (dval release 5) ty_string 7%Z.
Proof. hold. Qed.

(** ** C28 VecDyn neither double-drops nor loses values *)

@@ c28_accounting_partial
@@ c28_exact_partial
(** A program with vectors, boxed and small values, clones, moves and drops, in which no call panics
    and nothing is lost. *)
Definition p_keep : list dstep :=
  p_dyn ++ [DPush 3 7; DAssign 0 1 5; DCloneFrom 1 0 (FromVal 6); OSwapVals 8 10; OClone 9;
            DCall 0 (VResize ty_string 2 50%Z); DCall 0 (VReadAs ty_string); DAppend 0 1;
            DCall 1 VLen; DIntoVec 0 ty_string; ODowncast 9 ty_box; ODrop 6; DDrop 3].
Example c28_exact_ex : forall P, P = dev \/ P = release ->
  Forall (dstep_typed dyn_env) p_keep /\ dyn_in_range P dyn_env p_keep (d_init (V := AllVTable)) /\
  exists rs st, drun P dyn_env p_keep (d_init (V := AllVTable)) = (map Ret rs, st) /\ keeps_all p_keep rs.
Proof.
  intros P [-> | ->]; (csplit; [typed_dprog|vm_compute; intuition (try discriminate; auto)|]);
    (do 2 eexists; split; [vm_compute; match goal with |- (?l, ?s) = _ =>
       let rec strip l := lazymatch l with
         | nil => constr:(@nil dreport)
         | Ret ?x :: ?r => let r' := strip r in constr:(x :: r') end in
       let rs := strip l in
       instantiate (1 := s); instantiate (1 := rs) end; reflexivity
      |repeat constructor]).
Qed.
(** A program in which a user's clone panics, a push_cloned loses a vector, and a downcast to the
    wrong type leaks. *)
Definition p_panicky : list dstep :=
  p_dyn ++ [DPushCloned 2 (FromVal 11); DCall 2 VLen; DClone 0; ODowncast 5 ty_u8; DIntoVec 1 ty_u8].
Example c28_accounting_ex : forall P, P = dev \/ P = release ->
  Forall (dstep_typed dyn_env) p_panicky /\
  dyn_in_range P dyn_env p_panicky (d_init (V := AllVTable)) /\
  In (Panic PUser) (fst (drun P dyn_env p_panicky (d_init (V := AllVTable)))).
Proof.
  intros P [-> | ->]; (csplit; [typed_dprog|vm_compute; intuition (try discriminate; auto)
                              |vm_compute; tauto]).
Qed.

(** Values do get lost: after [into_vec] with another type nothing was dropped, nothing is stored and
    nothing was handed back. *)
Theorem c28_accounting_refuted :
  exists prog rs st,
    Forall (dstep_typed dyn_env) prog /\
    drun release dyn_env prog (d_init (V := AllVTable)) = (map Ret rs, st) /\
    given dyn_env prog (map Ret rs) = [(ty_string, 1); (ty_string, 2)]%Z /\
    stored dyn_env st = [] /\ taken dyn_env prog (map Ret rs) = [] /\ w_trace (d_world st) = [].
Proof.
  exists [DFromVec ty_string 2 [1; 2]%Z; DIntoVec 0 ty_u8], [DObs AUnit; DObs (AVals None)]. eexists.
  csplit; [typed_dprog| | | | |]; vm_compute; reflexivity.
Qed.
Print Assumptions c28_accounting_refuted.

(** What a panic of a growing call costs when there is no room. *)
@@ c28_push_as_no_room
Example c28_push_as_no_room_ex :
  types_ok vast_env /\ exists (b : vecdyn AllVTable) w,
    live_vec release vast_env b w /\ contents vast_env b 1 [7]%Z /\ vc_capacity b <= lenN [7]%Z /\
    max_alloc (t_align (vast_env 1)) <
      N.max (min_non_zero_cap (t_size (vast_env 1))) (N.max (lenN [7]%Z * 2) (lenN [7]%Z + 1)) *
      t_size (vast_env 1).
Proof.
  split; [apply vast_env_ok|]. destruct vast_live as (b & w & Hb & _ & Hc & Hk). exists b, w.
  split; [exact Hb|split; [exact Hc|split; [rewrite Hk; vm_compute; discriminate|vm_compute; reflexivity]]].
Qed.

@@ c28_append_no_room
Example c28_append_no_room_ex :
  let prog := [DFromVec ty_u8x3 1 [7]%Z; DFromVec ty_u8x3 1 [8]%Z] in
  let st := snd (drun release dyn_env prog (d_init (V := AllVTable))) in
  exists b b', live_vecs release dyn_env b b' (d_world st) /\
    contents dyn_env b ty_u8x3 [7]%Z /\ contents dyn_env b' ty_u8x3 [8]%Z /\
    odd_growth dyn_env ty_u8x3 (vc_capacity b) (lenN [7]%Z + lenN [8]%Z).
Proof.
  intros prog st. do 2 eexists. split.
  - exists st, 0%nat, 1%nat.
    split; [|split; [discriminate|split; [vm_compute; reflexivity|split; [vm_compute; reflexivity|reflexivity]]]].
    exists prog. subst prog st.
    split; [typed_dprog|split; [vm_compute; intuition (try discriminate; auto)|reflexivity]].
  - split; [split; [discriminate|vm_compute; reflexivity]|].
    split; [split; [discriminate|vm_compute; reflexivity]|].
    unfold odd_growth. csplit; vm_compute; reflexivity.
Qed.

(** ** C29 Dropping a VecDyn *)

@@ c29_drop
Example c29_drop_ex :
  types_ok dyn_env /\ live_vec release dyn_env (dvec release 0) (dmem release) /\
  contents dyn_env (dvec release 0) ty_string [1; 2; 3]%Z.
Proof. hold. Qed.

(** ** C31 Cloning a VecDyn *)

@@ c31_clone
Example c31_clone_ex :
  types_ok dyn_env /\ live_vec dev dyn_env (dvec dev 0) (dmem dev) /\
  contents dyn_env (dvec dev 0) ty_string [1; 2; 3]%Z /\
  exists tr, clone_seq dyn_env ty_string [1; 2; 3]%Z (w_trace (dmem dev)) = ([1; 2; 3]%Z, true, tr).
Proof. hold. Qed.

@@ c31_clone_panics
Example c31_clone_panics_ex :
  types_ok dyn_env /\ live_vec dev dyn_env (dvec dev 2) (dmem dev) /\
  contents dyn_env (dvec dev 2) ty_moody [1; 13]%Z /\
  exists tr, clone_seq dyn_env ty_moody [1; 13]%Z (w_trace (dmem dev)) = ([1]%Z, false, tr).
Proof. hold. Qed.

(** ** C32 Pushing a boxed value *)

@@ c32_push_partial
Example c32_push_ex :
  types_ok dyn_env /\ live_vec_val release dyn_env (dvec release 3) (dval release 7) (dmem release) /\
  contents dyn_env (dvec release 3) ty_tag [1; 2]%Z /\ value_is dyn_env (dval release 7) ty_tag 9%Z /\
  (exists bx, vl_store (dval release 7) = Boxed bx) /\
  t_size (dyn_env ty_tag) = 1 /\ t_align (dyn_env ty_tag) = 1 /\
  room dyn_env ty_tag (vc_capacity (dvec release 3)) (lenN [1; 2]%Z + 1).
Proof. hold. Qed.

@@ c32_other_type
Example c32_other_type_ex :
  types_ok dyn_env /\ live_vec_val release dyn_env (dvec release 0) (dval release 7) (dmem release) /\
  contents dyn_env (dvec release 0) ty_string [1; 2; 3]%Z /\ value_is dyn_env (dval release 7) ty_tag 9%Z /\
  ty_tag <> ty_string.
Proof. hold. Qed.

(** What is wrong with all other types: the box is freed with alignment 1, which is undefined
    behaviour if the type's alignment is larger; and a type that is larger than its alignment never
    gets in. *)
@@ c32_wrong_layout
@@ c32_push_never_works
Example c32_wrong_layout_ex :
  types_ok dyn_env /\ live_vec_val release dyn_env (dvec release 0) (dval release 5) (dmem release) /\
  contents dyn_env (dvec release 0) ty_string [1; 2; 3]%Z /\ value_is dyn_env (dval release 5) ty_string 7%Z /\
  (exists bx, vl_store (dval release 5) = Boxed bx) /\ t_align (dyn_env ty_string) <> 1.
Proof. hold. Qed.
Example c32_push_never_works_ex :
  types_ok dyn_env /\ live_vec_val release dyn_env (dvec release 4) (dval release 8) (dmem release) /\
  contents dyn_env (dvec release 4) ty_u8x3 [7]%Z /\ value_is dyn_env (dval release 8) ty_u8x3 5%Z /\
  (exists bx, vl_store (dval release 8) = Boxed bx) /\ t_align (dyn_env ty_u8x3) = 1 /\
  t_size (dyn_env ty_u8x3) <> 1.
Proof. hold. Qed.

Theorem c32_push_refuted :
  exists (b : vecdyn AllVTable) v w u b' w',
    live_vec_val release dyn_env b v w /\ contents dyn_env b ty_string [1; 2; 3]%Z /\
    value_is dyn_env v ty_string 7%Z /\ vd_push release dyn_env v b w = (UB u, b', w').
Proof.
  exists (dvec release 0), (dval release 5), (dmem release). do 3 eexists. hold.
Qed.
Print Assumptions c32_push_refuted.

(** After a caught panic the vector is a vector of [()]; pushing a boxed [()] onto it reads outside
    the box. *)
Theorem c32_unit_push_refuted :
  exists prog, Forall (dstep_typed dyn_env) prog /\
    forall P, P = dev \/ P = release ->
      In (UB UbOob) (fst (drun P dyn_env prog (d_init (V := AllVTable)))).
Proof.
  exists [DFromVec ty_moody 4 [1]%Z; OBox ty_moody 13%Z; DPushCloned 0 (FromVal 1);
          OBox ty_unit 0%Z; DPush 0 2].
  split; [typed_dprog|]. intros P [-> | ->]; vm_compute; tauto.
Qed.
Print Assumptions c32_unit_push_refuted.

(** ** C33 push_cloned *)

@@ c33_push_cloned_partial
Example c33_push_cloned_ex :
  types_ok dyn_env /\
  live_vec_ref release dyn_env (dvec release 0) (dref release (FromVec 1 2)) (dmem release) /\
  contents dyn_env (dvec release 0) ty_string [1; 2; 3]%Z /\
  ref_is dyn_env (dref release (FromVec 1 2)) ty_string 3%Z /\
  t_clone (dyn_env ty_string) (w_trace (dmem release)) 3%Z = Some 3%Z /\
  room dyn_env ty_string (vc_capacity (dvec release 0)) (lenN [1; 2; 3]%Z + 1) /\
  ~ odd_growth dyn_env ty_string (vc_capacity (dvec release 0)) (lenN [1; 2; 3]%Z + 1).
Proof. hold. Qed.

@@ c33_other_type
Example c33_other_type_ex :
  types_ok dyn_env /\
  live_vec_ref dev dyn_env (dvec dev 0) (dref dev (FromVal 11)) (dmem dev) /\
  contents dyn_env (dvec dev 0) ty_string [1; 2; 3]%Z /\ vr_type_id (dref dev (FromVal 11)) <> ty_string.
Proof. hold. Qed.

(** When the element's clone panics, push_cloned does change the other elements: all are lost. *)
@@ c33_panicking_clone_loses
Example c33_panicking_clone_loses_ex :
  types_ok dyn_env /\
  live_vec_ref dev dyn_env (dvec dev 2) (dref dev (FromVal 11)) (dmem dev) /\
  contents dyn_env (dvec dev 2) ty_moody [1; 13]%Z /\
  ref_is dyn_env (dref dev (FromVal 11)) ty_moody 13%Z /\
  t_clone (dyn_env ty_moody) (w_trace (dmem dev)) 13%Z = None /\
  room dyn_env ty_moody (vc_capacity (dvec dev 2)) (lenN [1; 13]%Z + 1).
Proof. hold. Qed.

@@ c33_push_cloned_no_room
Example c33_push_cloned_no_room_ex :
  types_ok vast_env /\ exists (b : vecdyn AllVTable) w,
    live_vec_ref release vast_env b (vr_new vast_env 1 8%Z) w /\ contents vast_env b 1 [7]%Z /\
    ref_is vast_env (vr_new (V := AllVTable) vast_env 1 8%Z) 1 8%Z /\
    ~ room vast_env 1 (vc_capacity b) (lenN [7]%Z + 1).
Proof.
  split; [apply vast_env_ok|]. destruct vast_live as (b & w & _ & Hr & Hc & Hk). exists b, w.
  split; [exact Hr|split; [exact Hc|split; [apply vast_ref|]]]. rewrite Hk.
  intros [H|H]; revert H; vm_compute; intros H; now apply H.
Qed.

Theorem c33_push_cloned_refuted :
  exists (b : vecdyn AllVTable) r w p b' w',
    live_vec_ref release dyn_env b r w /\ contents dyn_env b ty_moody [1; 13]%Z /\
    ref_is dyn_env r ty_moody 13%Z /\
    vd_push_cloned release dyn_env r b w = (Panic p, b', w') /\ vd_len b' = 0.
Proof.
  exists (dvec release 2), (dref release (FromVal 11)), (dmem release). do 3 eexists. hold.
Qed.
Print Assumptions c33_push_cloned_refuted.

(** ** C34 VecDyn::into_vec *)

@@ c34_into_vec
Example c34_into_vec_ex :
  types_ok dyn_env /\ live_vec release dyn_env (dvec release 0) (dmem release) /\
  contents dyn_env (dvec release 0) ty_string [1; 2; 3]%Z.
Proof. hold. Qed.

(** With another type the memory is freed but no element is dropped. *)
@@ c34_other_type_loses
Example c34_other_type_loses_ex :
  types_ok dyn_env /\ live_vec release dyn_env (dvec release 0) (dmem release) /\
  contents dyn_env (dvec release 0) ty_string [1; 2; 3]%Z /\ ty_u8 <> ty_string.
Proof. hold. Qed.

Theorem c34_into_vec_refuted :
  exists (b : vecdyn AllVTable) w w',
    live_vec release dyn_env b w /\ contents dyn_env b ty_string [1; 2; 3]%Z /\
    drops dyn_env ty_string [1; 2; 3]%Z = map (EvDrop ty_string) [1; 2; 3]%Z /\
    vd_into_vec release dyn_env ty_u8 b w = (Ret None, w') /\ w_trace w' = w_trace w.
Proof. exists (dvec release 0), (dmem release). eexists. hold. Qed.
Print Assumptions c34_into_vec_refuted.

(** ** C35 Equality of VecDyns and slices *)

@@ c35_eq_partial
@@ c35_slice_eq_partial
@@ c35_equivalence_partial
Example c35_eq_ex :
  types_ok dyn_env /\ live_vec release dyn_env (dvec release 0) (dmem release) /\
  contents dyn_env (dvec release 0) ty_string [1; 2; 3]%Z /\
  live_vec release dyn_env (dvec release 1) (dmem release) /\
  contents dyn_env (dvec release 1) ty_string [1; 2; 3]%Z /\ lenN [1; 2; 3]%Z = lenN [1; 2; 3]%Z /\
  slice_ok dyn_env ty_string [1; 2; 3]%Z.
Proof. hold. Qed.
Example c35_equivalence_ex :
  (forall x, t_eq (dyn_env ty_string) x x = true) /\
  (forall x y, t_eq (dyn_env ty_string) x y = t_eq (dyn_env ty_string) y x) /\
  (forall x y z, t_eq (dyn_env ty_string) x y = true -> t_eq (dyn_env ty_string) y z = true ->
                 t_eq (dyn_env ty_string) x z = true).
Proof.
  csplit; intros; cbn in *; [apply Z.eqb_refl|apply Z.eqb_sym|].
  apply Z.eqb_eq in H, H0. apply Z.eqb_eq. congruence.
Qed.

(** What the comparison really computes: only the common prefix counts. *)
@@ c35_common_prefix
@@ c35_slice_common_prefix

Theorem c35_eq_refuted :
  exists (b b' : vecdyn AllVTable) w,
    live_vec release dyn_env b w /\ contents dyn_env b ty_string [1; 2; 3]%Z /\
    live_vec release dyn_env b' w /\ contents dyn_env b' ty_string [1; 2]%Z /\
    vd_eq release dyn_env b b' = Ret true.
Proof. exists (dvec release 0), (dvec release 12), (dmem release). hold. Qed.
Print Assumptions c35_eq_refuted.

(** Not transitive: an empty vector, even of another type, equals every vector. *)
Theorem c35_transitive_refuted :
  exists prog (b0 b1 b2 : vecdyn AllVTable),
    let st := snd (drun release dyn_env prog d_init) in
    Forall (dstep_typed dyn_env) prog /\ dyn_in_range release dyn_env prog (d_init (V := AllVTable)) /\
    dget st 0 = Some (OVec b0) /\ dget st 1 = Some (OVec b1) /\ dget st 2 = Some (OVec b2) /\
    vd_eq release dyn_env b0 b1 = Ret true /\ vd_eq release dyn_env b1 b2 = Ret true /\
    vd_eq release dyn_env b0 b2 = Ret false.
Proof.
  exists [DFromVec ty_string 1 [1]%Z; DFromVec ty_box 1 []; DFromVec ty_string 1 [2]%Z].
  do 3 eexists. cbv zeta.
  split; [typed_dprog|]. split; [vm_compute; intuition (try discriminate; auto)|].
  do 5 (split; [vm_compute; reflexivity|]). vm_compute. reflexivity.
Qed.
Print Assumptions c35_transitive_refuted.

(** ** C36 Hash agrees with equality *)

@@ c36_hash
@@ c36_hash_eq_partial
@@ c36_value_hash
Example c36_hash_eq_ex :
  types_ok dyn_env /\ live_vec release dyn_env (dvec release 0) (dmem release) /\
  contents dyn_env (dvec release 0) ty_string [1; 2; 3]%Z /\
  live_vec release dyn_env (dvec release 1) (dmem release) /\
  contents dyn_env (dvec release 1) ty_string [1; 2; 3]%Z /\
  vd_eq release dyn_env (dvec release 0) (dvec release 1) = Ret true /\
  live_val release dyn_env (dval release 5) (dmem release) /\
  value_is dyn_env (dval release 5) ty_string 7%Z.
Proof. hold. Qed.
Example c36_hash_law_ex : forall x y,
  t_eq (dyn_env ty_string) x y = true -> t_hash (dyn_env ty_string) x = t_hash (dyn_env ty_string) y.
Proof. intros x y E. cbn in *. apply Z.eqb_eq in E. congruence. Qed.

Theorem c36_hash_eq_refuted :
  exists (b b' : vecdyn AllVTable) w,
    live_vec release dyn_env b w /\ live_vec release dyn_env b' w /\
    vd_eq release dyn_env b b' = Ret true /\ vd_hash release dyn_env b <> vd_hash release dyn_env b'.
Proof. exists (dvec release 0), (dvec release 12), (dmem release). hold. Qed.
Print Assumptions c36_hash_eq_refuted.

(** ** C37 Debug output *)

@@ c37_vec_fmt
@@ c37_slice_fmt
@@ c37_value_fmt
@@ c37_ref_fmt
Example c37_fmt_ex :
  live_vec release dyn_env (dvec release 0) (dmem release) /\
  contents dyn_env (dvec release 0) ty_string [1; 2; 3]%Z /\
  list_fmt dyn_env ty_string [1; 2; 3]%Z = "[odd, even, odd]"%string /\
  slice_ok dyn_env ty_string [1; 2; 3]%Z /\
  live_val release dyn_env (dval release 5) (dmem release) /\
  value_is dyn_env (dval release 5) ty_string 7%Z /\
  live_ref release dyn_env (dref release (FromVec 1 2)) (dmem release) /\
  ref_is dyn_env (dref release (FromVec 1 2)) ty_string 3%Z /\ ty_string <> unit_id.
Proof. hold. Qed.

(** ** C38 resize, clear and fill *)

@@ c38_clear
@@ c38_resize_grow_partial
@@ c38_resize_clone_panics
@@ c38_resize_shrink
@@ c38_resize_other_type
@@ c38_fill
@@ c38_fill_clone_panics
Example c38_clear_ex :
  types_ok dyn_env /\ live_vec release dyn_env (dvec release 0) (dmem release) /\
  contents dyn_env (dvec release 0) ty_string [1; 2; 3]%Z /\ 1 < lenN [1; 2; 3]%Z /\ ty_u8 <> ty_string.
Proof. hold. Qed.
Example c38_resize_grow_ex :
  types_ok dyn_env /\ live_vec release dyn_env (dvec release 0) (dmem release) /\
  contents dyn_env (dvec release 0) ty_string [1; 2; 3]%Z /\ lenN [1; 2; 3]%Z <= 5 /\
  room dyn_env ty_string (vc_capacity (dvec release 0)) 5 /\
  ~ odd_growth dyn_env ty_string (vc_capacity (dvec release 0)) 5 /\
  exists tr, clone_seq dyn_env ty_string (repeat 9%Z (N.to_nat (5 - lenN [1; 2; 3]%Z)))
               (w_trace (dmem release)) = ([9; 9]%Z, true, tr).
Proof. hold. Qed.
Example c38_resize_clone_panics_ex :
  types_ok dyn_env /\ live_vec release dyn_env (dvec release 2) (dmem release) /\
  contents dyn_env (dvec release 2) ty_moody [1; 13]%Z /\ lenN [1; 13]%Z <= 5 /\
  room dyn_env ty_moody (vc_capacity (dvec release 2)) 5 /\
  ~ odd_growth dyn_env ty_moody (vc_capacity (dvec release 2)) 5 /\
  exists tr, clone_seq dyn_env ty_moody (repeat 13%Z (N.to_nat (5 - lenN [1; 13]%Z)))
               (w_trace (dmem release)) = ([], false, tr).
Proof. hold. Qed.
@@ c38_resize_no_room
Example c38_resize_no_room_ex :
  types_ok dyn_env /\ live_vec release dyn_env (dvec release 0) (dmem release) /\
  contents dyn_env (dvec release 0) ty_string [1; 2; 3]%Z /\
  fits release 500000000000000000 (t_size (dyn_env ty_string)) /\
  ~ room dyn_env ty_string (vc_capacity (dvec release 0)) 500000000000000000.
Proof.
  csplit; try solve [hold].
  intros [H|H]; revert H; vm_compute; intros H; now apply H.
Qed.
Example c38_fill_ex :
  types_ok dyn_env /\ live_vec release dyn_env (dvec release 0) (dmem release) /\
  contents dyn_env (dvec release 0) ty_string [1; 2; 3]%Z /\
  exists tr, replace_seq dyn_env ty_string (repeat 9%Z (List.length [1; 2; 3]%Z)) [1; 2; 3]%Z
               (w_trace (dmem release)) = ([9; 9; 9]%Z, true, tr).
Proof. hold. Qed.
Example c38_fill_clone_panics_ex :
  types_ok dyn_env /\ live_vec release dyn_env (dvec release 2) (dmem release) /\
  contents dyn_env (dvec release 2) ty_moody [1; 13]%Z /\
  exists tr, replace_seq dyn_env ty_moody (repeat 13%Z (List.length [1; 13]%Z)) [1; 13]%Z
               (w_trace (dmem release)) = ([1; 13]%Z, false, tr).
Proof. hold. Qed.

(** The odd growth of C08 also hits resize: the call panics and the vector is lost. *)
Theorem c38_resize_grow_refuted :
  exists prog, Forall (dstep_typed dyn_env) prog /\
    forall P, P = dev \/ P = release -> exists p,
      fst (drun P dyn_env prog (d_init (V := AllVTable))) =
      [Ret (DObs AUnit); Panic p; Ret (DObs (ANum 0))].
Proof.
  exists [DFromVec ty_u8x3 1 [7]%Z; DCall 0 (VResize ty_u8x3 2 8%Z); DCall 0 VLen].
  split; [typed_dprog|]. intros P [-> | ->]; eexists; vm_compute; reflexivity.
Qed.
Print Assumptions c38_resize_grow_refuted.

(** ** C30 Panicking destructors *)

(** Types as in [ex_env], with the tables of this file. *)
Theorem c30_panicking_destructor_refuted :
  exists prog, Forall (dstep_typed ex_env) prog /\
    forall P, P = dev \/ P = release ->
      fst (drun P ex_env prog (d_init (V := AllVTable))) =
        [Ret (DObs AUnit); Panic PUser; Panic PUser] /\
      count_occ Z.eq_dec
        (flat_map (fun e => match e with EvDrop _ v => [v] | _ => [] end)
                  (w_trace (d_world (snd (drun P ex_env prog (d_init (V := AllVTable)))))))
        1%Z = 2%nat.
Proof.
  exists [DFromVec ty_moody 2 [1; 66]%Z; DCall 0 VClear; DDrop 0].
  split; [typed_dprog|]. intros P [-> | ->]; vm_compute; split; reflexivity.
Qed.
Print Assumptions c30_panicking_destructor_refuted.

(** What does happen, for every vector of a program that was not aborted, destructors having
    panicked in it or not: the call runs exactly the destructors [ds] of [drop_seq], each once, and when one of
    them panics the vector is left as it was (so that its elements will be dropped again), or leaked
    if it was being dropped. *)
@@ c30_clear_partial
@@ c30_resize_partial
@@ c30_drop_partial
@@ c30_dropped_again
Example c30_ex :
  wf_tenv edgy_env /\ clones_ok edgy_env /\
  In (Panic PUser) (fst (drun release edgy_env p_panic (d_init (V := AllVTable)))) /\
  running_vec release edgy_env (pvec release 0) (pmem release) /\
  contents edgy_env (pvec release 0) ty_string [1; 66; 2; 66]%Z /\
  drop_seq edgy_env ty_string (w_trace (pmem release)) [1; 66; 2; 66]%Z = ([1; 66]%Z, false) /\
  2 < lenN [1; 66; 2; 66]%Z /\
  drop_seq edgy_env ty_string (w_trace (pmem release)) (skipnN 2 [1; 66; 2; 66]%Z) = ([2; 66]%Z, false) /\
  drop_seq edgy_env ty_string (w_trace (pmem release) ++ drops edgy_env ty_string [2; 66]%Z) [66]%Z = ([66]%Z, false) /\
  drop_seq edgy_env ty_string (w_trace (pmem release) ++ drops edgy_env ty_string [1; 66]%Z) [1; 66; 2; 66]%Z
    = ([1; 66]%Z, false) /\
  running_vec release edgy_env (pvec release 1) (pmem release) /\
  contents edgy_env (pvec release 1) ty_string [5; 6]%Z /\
  drop_seq edgy_env ty_string (w_trace (pmem release)) [5; 6]%Z = ([5; 6]%Z, true).
Proof.
  csplit;
  lazymatch goal with
  | |- wf_tenv _ => apply edgy_env_ok
  | |- clones_ok _ => apply edgy_env_ok
  | |- running_vec _ _ _ _ => apply pvec_live; [auto|lia]
  | |- contents _ _ _ _ => split; [discriminate|vm_compute; reflexivity]
  | |- In _ _ => vm_compute; auto 10
  | |- _ < _ => vm_compute; reflexivity
  | |- _ = _ => vm_compute; reflexivity
  end.
Qed.
(** Converted into a [Vec] instead, all elements are dropped, each once.  [panicking],
    [drop_panics], [running_val] and [running_vec_val] are in LoudSpec.v. *)
@@ c30_into_vec
Example c30_into_vec_ex :
  wf_tenv edgy_env /\ clones_ok edgy_env /\
  (exists (b : vecdyn AllVTable) w, running_vec release edgy_env b w /\
     contents edgy_env b ty_string [1; 66; 2]%Z /\ w_trace w = []) /\
  panicking edgy_env ty_string [] [1; 66; 2]%Z = [66]%Z /\
  panicking edgy_env ty_string [] [1; 66; 2; 66]%Z = [66; 66]%Z.
Proof.
  split; [apply edgy_env_ok|split; [apply edgy_env_ok|split; [apply one_panic_runs|]]].
  split; reflexivity.
Qed.
(** Owned values, and elements replaced by them. *)
@@ c30_value_drop
@@ c30_assign_element
Example c30_values_ex :
  wf_tenv edgy_env /\ clones_ok edgy_env /\
  (exists (b : vecdyn AllVTable) (v v' : value AllVTable) w,
    running_vec_val release edgy_env b v w /\ running_val release edgy_env v' w /\
    contents edgy_env b ty_string [1; 66; 2]%Z /\ value_is edgy_env v ty_string 7%Z /\
    value_is edgy_env v' ty_string 66%Z /\
    drop_panics edgy_env ty_string (w_trace w) 66%Z = true) /\
  nthN [1; 66; 2]%Z 1 = Some 66%Z.
Proof.
  split; [apply edgy_env_ok|split; [apply edgy_env_ok|split; [apply loud_runs|reflexivity]]].
Qed.
(** Elements replaced by clones; [loud_replace] is in LoudSpec.v. *)
@@ c30_clone_from_element
@@ c30_fill
@@ c30_clone_from_slice
Example c30_clones_ex :
  wf_tenv edgy_env /\ clones_ok edgy_env /\
  (exists (b : vecdyn AllVTable) w, running_vec release edgy_env b w /\
     contents edgy_env b ty_string [1; 66; 2]%Z /\ w_trace w = []) /\
  nthN [1; 66; 2]%Z 1 = Some 66%Z /\ t_clone (edgy_env ty_string) [] 5%Z = Some 5%Z /\
  slice_ok edgy_env ty_string [1; 66; 2]%Z /\ lenN (repeat 5%Z 3) = lenN [1; 66; 2]%Z /\
  exists tr, loud_replace edgy_env ty_string (repeat 5%Z 3) [1; 66; 2]%Z [] = ([5; 5; 2]%Z, false, tr).
Proof.
  split; [apply edgy_env_ok|split; [apply edgy_env_ok|split; [apply one_panic_runs|]]].
  split; [reflexivity|split; [reflexivity|split; [|split; [reflexivity|eexists; vm_compute; reflexivity]]]].
  split; vm_compute; try discriminate; auto.
Qed.

(** ** C39 A VecDyn can be dropped after a caught panic *)

@@ c39_drop_partial
Example c39_drop_ex :
  types_ok dyn_env /\ live_vec release dyn_env (dvec release 0) (dmem release).
Proof. hold. Qed.

Theorem c39_drop_refuted :
  exists prog, Forall (dstep_typed dyn_env) prog /\
    forall P, P = dev \/ P = release -> exists p,
      fst (drun P dyn_env prog (d_init (V := AllVTable))) =
      [Ret (DObs AUnit); Ret (DObs AUnit); Panic PUser; Panic p].
Proof.
  exists [DFromVec ty_moody 4 [1]%Z; OBox ty_moody 13%Z; DPushCloned 0 (FromVal 1); DDrop 0].
  split; [typed_dprog|]. intros P [-> | ->]; eexists; vm_compute; reflexivity.
Qed.
Print Assumptions c39_drop_refuted.

(** ** C40 Value ownership *)

@@ c40_new
@@ c40_drop
@@ c40_downcast_box
@@ c40_downcast_small
@@ c40_clone
@@ c40_clone_value
@@ c40_clone_small_value
@@ c40_clone_small_too_big
@@ c40_box_freed
(** Dropping a [ty_moody] worth 66 panics. *)
Example c40_box_freed_ex :
  wf_tenv ex_env /\ wf_world w0 /\ is_value ex_env ty_moody 66%Z /\
  negb (t_copy (ex_env ty_moody)) && t_drop_panics (ex_env ty_moody) (w_trace w0) 66%Z = true.
Proof. split; [apply ex_env_wf|]. hold. Qed.
Example c40_ex :
  types_ok dyn_env /\ is_value dyn_env ty_string 7%Z /\ wf_world w0 /\
  live_val release dyn_env (dval release 5) (dmem release) /\
  value_is dyn_env (dval release 5) ty_string 7%Z /\ (exists b, vl_store (dval release 5) = Boxed b) /\
  live_val release dyn_env (dval release 9) (dmem release) /\
  value_is dyn_env (dval release 9) ty_box 4%Z /\ vl_store (dval release 9) = Inline.
Proof. hold. Qed.
Example c40_clone_ref_ex :
  types_ok dyn_env /\ live_ref release dyn_env (dref release (FromVec 1 2)) (dmem release) /\
  ref_is dyn_env (dref release (FromVec 1 2)) ty_string 3%Z /\ ty_string <> unit_id /\
  t_size (dyn_env ty_string) <> 8 /\
  t_clone (dyn_env ty_string) (w_trace (dmem release)) 3%Z = Some 3%Z /\
  live_ref release dyn_env (dref release (FromVal 9)) (dmem release) /\
  ref_is dyn_env (dref release (FromVal 9)) ty_box 4%Z /\ t_size (dyn_env ty_box) = 8.
Proof. hold. Qed.

(** ** C41 A failed downcast does not leak *)

(** A failed downcast always leaks a boxed value, and always skips the destructor of a small one. *)
@@ c41_leaks
@@ c41_small_leaks
@@ c41_copy_partial
Example c41_ex :
  types_ok dyn_env /\ live_val release dyn_env (dval release 5) (dmem release) /\
  value_is dyn_env (dval release 5) ty_string 7%Z /\
  (exists i, vl_store (dval release 5) = Boxed (Some i)) /\ t_size (dyn_env ty_string) <> 0 /\
  ty_u8 <> ty_string /\ live_val release dyn_env (dval release 10) (dmem release) /\
  value_is dyn_env (dval release 10) ty_usize 6%Z /\ vl_store (dval release 10) = Inline /\
  t_copy (dyn_env ty_usize) = true /\ ty_u8 <> ty_usize.
Proof. hold. Qed.

Theorem c41_leaks_refuted :
  exists (v : value AllVTable) w w' blk,
    live_val release dyn_env v w /\ value_is dyn_env v ty_string 7%Z /\ In blk (val_blocks v) /\
    bv_downcast dyn_env ty_u8 v w = (Ret None, w') /\ w_trace w' = w_trace w /\ In blk (w_live w').
Proof.
  exists (dval release 5), (dmem release). do 2 eexists.
  csplit; [apply dval_live; [auto|lia]|repeat split; vm_compute; reflexivity|vm_compute; left; reflexivity
          |vm_compute; reflexivity|vm_compute; reflexivity|vm_compute; tauto].
Qed.
Print Assumptions c41_leaks_refuted.

(** ** C42 SmallValue admission *)

@@ c42_try_new_partial
Example c42_try_new_ex :
  types_ok dyn_env /\ is_value dyn_env ty_box 4%Z /\ is_value dyn_env ty_string 4%Z /\ wf_world w0 /\
  t_size (dyn_env ty_box) = 8 /\ t_size (dyn_env ty_string) <> 8.
Proof. hold. Qed.

(** On failure the value is neither dropped nor handed back. *)
Theorem c42_try_new_refuted :
  exists t x, drops dyn_env t [x] = [EvDrop t x] /\
    forall w, sv_try_new (V := AllVTable) dyn_env t x w = (None, w).
Proof. exists ty_string, 4%Z. split; [vm_compute; reflexivity|]. intros w. reflexivity. Qed.
Print Assumptions c42_try_new_refuted.

(** ** C43 ValueMut swap, assign, clone_from_other *)

@@ c43_swap_values
@@ c43_assign_value
@@ c43_clone_from_value
@@ c43_clone_from_other_type
@@ c43_swap_elements
@@ c43_assign_element
@@ c43_clone_from_element
(** A clone panics: the target is as before. *)
@@ c43_clone_from_value_panics
@@ c43_clone_from_element_panics
Example c43_clone_from_panics_ex :
  types_ok dyn_env /\
  live_val_ref release dyn_env (dval release 11) (dref release (FromVec 2 1)) (dmem release) /\
  value_is dyn_env (dval release 11) ty_moody 13%Z /\
  ref_is dyn_env (dref release (FromVec 2 1)) ty_moody 13%Z /\ ty_moody <> unit_id /\
  t_clone (dyn_env ty_moody) (w_trace (dmem release)) 13%Z = None /\
  live_vec_ref release dyn_env (dvec release 2) (dref release (FromVal 11)) (dmem release) /\
  contents dyn_env (dvec release 2) ty_moody [1; 13]%Z /\
  ref_is dyn_env (dref release (FromVal 11)) ty_moody 13%Z /\ nthN [1; 13]%Z 0 = Some 1%Z.
Proof.
  split; [apply dyn_env_ok|split].
  - exists (dfinal release), 11%nat, (FromVec 2 1).
    csplit; [apply dfinal_reachable; auto|vm_compute; reflexivity|vm_compute; auto
            |vm_compute; intuition discriminate|reflexivity|vm_compute; reflexivity|reflexivity].
  - hold.
Qed.
(** Writing through the typed reference that [downcast] gives. *)
@@ c43_downcast_value
@@ c43_downcast_element
Example c43_downcast_ex :
  types_ok dyn_env /\ live_val release dyn_env (dval release 5) (dmem release) /\
  value_is dyn_env (dval release 5) ty_string 7%Z /\ is_value dyn_env ty_string 9%Z /\
  is_value dyn_env ty_box 9%Z /\ ty_box <> ty_string /\
  live_vec release dyn_env (dvec release 0) (dmem release) /\
  contents dyn_env (dvec release 0) ty_string [1; 2; 3]%Z /\ nthN [1; 2; 3]%Z 2 = Some 3%Z.
Proof. hold. Qed.
Example c43_ex :
  types_ok dyn_env /\ live_vals release dyn_env (dval release 5) (dval release 6) (dmem release) /\
  value_is dyn_env (dval release 5) ty_string 7%Z /\ value_is dyn_env (dval release 6) ty_string 8%Z /\
  live_val_ref release dyn_env (dval release 5) (dref release (FromVal 6)) (dmem release) /\
  ref_is dyn_env (dref release (FromVal 6)) ty_string 8%Z /\ ty_string <> unit_id /\
  t_clone (dyn_env ty_string) (w_trace (dmem release)) 8%Z = Some 8%Z /\
  live_val_ref release dyn_env (dval release 5) (dref release (FromVal 11)) (dmem release) /\
  vr_type_id (dref release (FromVal 11)) <> ty_string.
Proof. hold. Qed.
Example c43_elements_ex :
  types_ok dyn_env /\ live_vecs release dyn_env (dvec release 0) (dvec release 1) (dmem release) /\
  contents dyn_env (dvec release 0) ty_string [1; 2; 3]%Z /\
  contents dyn_env (dvec release 1) ty_string [1; 2; 3]%Z /\
  nthN [1; 2; 3]%Z 0 = Some 1%Z /\ nthN [1; 2; 3]%Z 2 = Some 3%Z /\
  live_vec_val release dyn_env (dvec release 0) (dval release 5) (dmem release) /\
  live_vec_ref release dyn_env (dvec release 0) (dref release (FromVec 1 2)) (dmem release) /\
  ref_is dyn_env (dref release (FromVec 1 2)) ty_string 3%Z.
Proof. hold. Qed.

(** ** C45 Values of different types are never equal *)

@@ c45_value_eq
@@ c45_ref_eq
@@ c45_mut_eq
@@ c45_copy_ref_eq
Example c45_ex :
  types_ok dyn_env /\ live_val release dyn_env (dval release 5) (dmem release) /\
  value_is dyn_env (dval release 5) ty_string 7%Z /\
  live_val release dyn_env (dval release 9) (dmem release) /\
  value_is dyn_env (dval release 9) ty_box 4%Z /\ ty_string <> ty_box /\
  live_ref release dyn_env (dref release (FromVec 1 2)) (dmem release) /\
  ref_is dyn_env (dref release (FromVec 1 2)) ty_string 3%Z /\ ty_string <> unit_id /\
  is_value dyn_env ty_u32 3%Z /\ is_value dyn_env ty_f32 3%Z.
Proof. hold. Qed.

(** ** C54 Raw parts of VecDyn and Value *)

@@ c54_vecdyn_raw_parts
@@ c54_value_raw_parts

(** ** C55 Untyped indexing of VecDyn *)

@@ c55_vec_get_partial
@@ c55_vec_get_mut_partial
Example c55_vec_get_ex :
  types_ok dyn_env /\ live_vec release dyn_env (dvec release 0) (dmem release) /\
  contents dyn_env (dvec release 0) ty_string [1; 2; 3]%Z /\
  fits release (2 + 1) (t_size (dyn_env ty_string)) /\ nthN [1; 2; 3]%Z 2 = Some 3%Z /\
  fits release (3 + 1) (t_size (dyn_env ty_string)) /\ nthN [1; 2; 3]%Z 3 = None.
Proof. hold. Qed.

(** In a release build the byte position wraps around: a far out-of-range index gives element 0. *)
Theorem c55_vec_get_refuted :
  exists (b : vecdyn AllVTable) w i r,
    live_vec release dyn_env b w /\ contents dyn_env b ty_string [1; 2; 3]%Z /\ 3 <= i /\
    vd_get release i b = Ret r /\ ref_is dyn_env r ty_string 1%Z.
Proof. exists (dvec release 0), (dmem release), (2 ^ 61). eexists. hold. Qed.
Print Assumptions c55_vec_get_refuted.
(** A vector that a panic has left without contents: in a release build every index is accepted. *)
@@ c55_lost_vec_get
Example c55_lost_vec_get_ex :
  types_ok dyn_env /\
  (exists (b : vecdyn AllVTable) w, live_vec dev dyn_env b w /\ lost_vec dyn_env b) /\
  exists (b : vecdyn AllVTable) w, live_vec release dyn_env b w /\ lost_vec dyn_env b.
Proof. split; [apply dyn_env_ok|split; apply lost_live; auto]. Qed.

(** ** C56 Bulk copies of owned elements *)

@@ c56_clone_into_vec
@@ c56_clone_into_vec_panics
@@ c56_clone_into_vec_other_type
@@ c56_append_cloned_to_vec
Example c56_clone_into_vec_ex :
  types_ok dyn_env /\ live_vec release dyn_env (dvec release 0) (dmem release) /\
  contents dyn_env (dvec release 0) ty_string [1; 2; 3]%Z /\
  (exists tr, clone_seq dyn_env ty_string [1; 2; 3]%Z (w_trace (dmem release)) = ([1; 2; 3]%Z, true, tr)) /\
  ty_u8 <> ty_string.
Proof. hold. Qed.
Example c56_clone_into_vec_panics_ex :
  types_ok dyn_env /\ live_vec dev dyn_env (dvec dev 2) (dmem dev) /\
  contents dyn_env (dvec dev 2) ty_moody [1; 13]%Z /\
  exists tr, clone_seq dyn_env ty_moody [1; 13]%Z (w_trace (dmem dev)) = ([1]%Z, false, tr).
Proof. hold. Qed.
Example c56_append_cloned_to_vec_ex :
  exists vec w1, vec_make dyn_env ty_string 1 [5]%Z (dmem release) = (Ret vec, w1) /\
    N.max (N.max (v_cap vec * 2) (1 + 3)) (min_non_zero_cap (t_size (dyn_env ty_string))) *
      t_size (dyn_env ty_string) <= max_alloc (t_align (dyn_env ty_string)).
Proof. do 2 eexists. hold. Qed.

@@ c56_slice_append_clone
@@ c56_slice_clone_into_vec
@@ c56_slice_other_type
@@ c56_clone_from_slice
Example c56_slice_ex :
  types_ok dyn_env /\ slice_ok dyn_env ty_string [1; 2; 3]%Z /\ wf_world w0 /\
  (exists r, vec_make dyn_env ty_string 1 [5]%Z w0 = r) /\
  lenN [4; 5; 6]%Z = lenN [1; 2; 3]%Z /\
  exists tr, replace_seq dyn_env ty_string [4; 5; 6]%Z [1; 2; 3]%Z (w_trace w0) = ([4; 5; 6]%Z, true, tr).
Proof. hold. Qed.

(** ** C57 Only copyable types end up in VecCopy *)

@@ c57_copy_only_partial
Example c57_copy_only_ex :
  wf_tenv ex_env /\ live_buffer release ex_env ex_build (buf release p_u32 0) (mem release p_u32) /\
  t_copy (ex_env ty_moody) = false.
Proof. split; [apply ex_env_wf|]. split; [apply u32_live; auto|vm_compute; reflexivity]. Qed.

(** A [VecCopy] of strings made by safe code: [VecCopy::with_type_from(value_ref)], [push_as] of one
    string, [clone], and [into_vec] of both buffers.  The one string is dropped twice. *)
Theorem c57_copy_only_refuted :
  exists (r : vref AllVTable) w b w1 b1 w2 b2 w3 v1 w4 v2 w5 w6 w7,
    live_ref release dyn_env r w /\ ref_is dyn_env r ty_string 3%Z /\
    t_copy (dyn_env ty_string) = false /\
    vc_with_type_from release (meta_of_vref r) w = (Ret b, w1) /\
    vc_push_as release dyn_env ty_string 77%Z b w1 = (Ret true, b1, w2) /\
    vc_clone release b1 w2 = (Ret b2, w3) /\
    vc_into_vec release dyn_env ty_string b1 w3 = (Ret (Some v1), w4) /\
    vc_into_vec release dyn_env ty_string b2 w4 = (Ret (Some v2), w5) /\
    vec_drop dyn_env ty_string v1 w5 = (Ret tt, w6) /\
    vec_drop dyn_env ty_string v2 w6 = (Ret tt, w7) /\
    events w [EvDrop ty_string 77%Z; EvDrop ty_string 77%Z] w7.
Proof.
  exists (dref release (FromVec 1 2)), (dmem release). do 12 eexists.
  split; [hold|]. split; [hold|]. repeat (split; [vm_compute; reflexivity|]). vm_compute. reflexivity.
Qed.
Print Assumptions c57_copy_only_refuted.

(** ** C58 The type information of a container is consistent *)

@@ c58_one_source_partial
(** The fields of [Meta] are public: whatever two types it is mixed from, a vector built from it
    breaks as soon as it holds an element. *)
@@ c58_mixed_meta
Example c58_ex :
  types_ok dyn_env /\ wf_world w0 /\ t_size (dyn_env ty_string) <> 0 /\ t_size (dyn_env ty_u32) <> 0 /\
  ty_string <> ty_u32 /\
  taken_from _ release dyn_env ty_string (meta_of_vecdyn (dvec release 1)) /\
  taken_from _ release dyn_env ty_u32 (meta_of_slice (sl_from_slice dyn_env ty_u32 [1]%Z (build_vtable (V := AllVTable) ty_u32))).
Proof.
  split; [hold|]. split; [hold|]. split; [hold|]. split; [hold|]. split; [hold|]. split.
  - left. exists (dvec release 1), (dmem release), [1; 2; 3]%Z. hold.
  - right. right. right. eauto.
Qed.

(** Two types of the same size. *)
Theorem c58_mixed_refuted :
  exists (m m' : meta AllVTable) b w1 b1 w2 u w3,
    taken_from _ release dyn_env ty_box m /\ taken_from _ release dyn_env ty_moody m' /\
    vd_with_type_from release (Meta (m_elem m) (m_vtable m')) w0 = (Ret b, w1) /\
    vd_push_as release dyn_env ty_box 7%Z b w1 = (Ret true, b1, w2) /\
    vd_drop release dyn_env b1 w2 = (UB u, w3).
Proof.
  exists (meta_of_vref (vl_as_ref (dval release 9))), (meta_of_vref (vl_as_ref (dval release 11))).
  do 6 eexists. split; [|split].
  - right. right. left. exists (dval release 9), (dmem release), 4%Z. split; [hold|]. split; [hold|auto].
  - right. right. left. exists (dval release 11), (dmem release), 13%Z. split; [hold|]. split; [hold|auto].
  - split; [vm_compute; reflexivity|]. split; [vm_compute; reflexivity|]. vm_compute; reflexivity.
Qed.
Print Assumptions c58_mixed_refuted.

(** ** C61 Programs over VecDyns and values behave as programs over lists *)

@@ c61_programs_partial
(** [p_keep] meets the hypotheses: see [c28_exact_ex].  What it reports about vectors 0 and 1: *)
Example c61_programs_ex : forall P, P = dev \/ P = release ->
  nth_error (fst (drun P dyn_env p_keep (d_init (V := AllVTable)))) 21 =
    Some (Ret (DObs (AVals (Some [1; 7]%Z)))) /\
  nth_error (fst (drun P dyn_env p_keep (d_init (V := AllVTable)))) 24 =
    Some (Ret (DObs (AVals (Some [1; 7; 8; 2; 3]%Z)))).
Proof. intros P [-> | ->]; split; vm_compute; reflexivity. Qed.

Theorem c61_programs_refuted :
  exists prog rs st,
    Forall (dstep_typed dyn_env) prog /\
    drun release dyn_env prog (d_init (V := AllVTable)) = (map Ret rs, st) /\
    dyn_run dyn_env prog (LState [] []) = None.
Proof.
  exists [DFromSlice ty_u8x3 [1; 2]%Z; DCall 0 (VRotL 12297829382473034411)].
  exists [DObs AUnit; DObs AUnit]. eexists.
  csplit; [typed_dprog|vm_compute; reflexivity|vm_compute; reflexivity].
Qed.
Print Assumptions c61_programs_refuted.

(** ** C63 The raw parts of a boxed value *)

@@ c63_raw_box_partial
Example c63_raw_box_ex :
  types_ok dyn_env /\ live_val release dyn_env (dval release 7) (dmem release) /\
  value_is dyn_env (dval release 7) ty_tag 9%Z /\ (exists b, vl_store (dval release 7) = Boxed b) /\
  t_align (dyn_env ty_tag) = 1 /\ t_align (dyn_env ty_string) <> 1.
Proof. hold. Qed.

Theorem c63_raw_box_refuted :
  exists (v : value AllVTable) w b bytes t al tab u w',
    live_val release dyn_env v w /\ value_is dyn_env v ty_string 7%Z /\
    vl_into_raw_parts v = ((Boxed b, bytes), t, al, tab) /\
    byte_box_drop (ByteBox b bytes) w = (UB u, w').
Proof. exists (dval release 5), (dmem release). do 7 eexists. hold. Qed.
Print Assumptions c63_raw_box_refuted.

(** ** C67 Reborrowed and converted views *)

@@ c67_reborrow
@@ c67_copy_views
@@ c67_slice_reborrow
@@ c67_from_value
@@ c67_new_views
(** These hold of all views; here are two that show something. *)
Example c67_ex :
  ref_is dyn_env (vm_reborrow (vm_reborrow_mut (vl_as_mut (dval release 5)))) ty_string 7%Z /\
  vr_downcast dyn_env ty_u32 (vr_of_cr (copy_ref_new dyn_env ty_u32 5%Z (build_vtable (V := AllVTable) ty_u32))) = Ret (Some 5%Z).
Proof. hold. Qed.
Example c67_more_ex :
  ref_is dyn_env (vr_of_value (dval release 5)) ty_string 7%Z /\ is_value dyn_env ty_string 7%Z /\
  sl_as_slice release dyn_env ty_u32
    (sl_reborrow (sl_from_slice dyn_env ty_u32 [1; 2]%Z (build_vtable (V := AllVTable) ty_u32)))
    = Ret (Some [1; 2]%Z).
Proof.
  split; [split; vm_compute; reflexivity|split; [now intros ?|vm_compute; reflexivity]].
Qed.

(** ** C73 into_dyn! and from_dyn! *)

(** Converting back with the same table type gives the container back. *)
@@ c73_round_trip
(** The container with the trait object behaves as before. *)
@@ c73_same_behaviour
@@ c73_slice
Definition ex_tab : tyid -> Type := fun _ => AllVTable.
Example c73_same_behaviour_ex :
  contents dyn_env (vd_into_dyn ex_tab (k := 1) (dvec release 0)) ty_string [1; 2; 3]%Z.
Proof. hold. Qed.

(** With another table type, [from_dyn!] panics and frees the memory, and drops no element. *)
@@ c73_other_table
Example c73_other_table_ex :
  types_ok dyn_env /\ live_vec release dyn_env (dvec release 0) (dmem release) /\
  contents dyn_env (dvec release 0) ty_string [1; 2; 3]%Z /\ 2 <> 1.
Proof. hold. Qed.
(** For copied elements nothing is lost. *)
@@ c73_copy_other_table

Theorem c73_from_dyn_refuted :
  exists (b : vecdyn (ex_tab 1)) w w',
    live_vec (V := AllVTable) release dyn_env b w /\ contents dyn_env b ty_string [1; 2; 3]%Z /\
    drops dyn_env ty_string [1; 2; 3]%Z = map (EvDrop ty_string) [1; 2; 3]%Z /\
    vd_from_dyn ex_tab release 2 (vd_into_dyn ex_tab b) w = (Panic PAssert, w') /\ w_trace w' = w_trace w.
Proof. exists (dvec release 0), (dmem release). eexists. hold. Qed.
Print Assumptions c73_from_dyn_refuted.

(** ** C75 The unchecked accessors *)

@@ c75_unchecked_copy
@@ c75_unchecked_dyn
Example c75_unchecked_ex :
  types_ok dyn_env /\ live_vec release dyn_env (dvec release 0) (dmem release) /\
  contents dyn_env (dvec release 0) ty_string [1; 2; 3]%Z /\ nthN [1; 2; 3]%Z 2 = Some 3%Z /\
  live_buffer release ex_env ex_build (buf release p_u32 0) (mem release p_u32) /\
  shows ex_env (buf release p_u32 0) ty_u32 [10; 20; 30]%Z /\ nthN [10; 20; 30]%Z 1 = Some 20%Z.
Proof.
  split; [hold|]. split; [hold|]. split; [hold|]. split; [reflexivity|].
  split; [apply u32_live; auto|]. split; [apply u32_shows; auto|reflexivity].
Qed.

(** ** C76 Cloning through a view for writing *)

@@ c76_clone_through_mut
Example c76_clone_through_mut_ex :
  types_ok dyn_env /\ live_val release dyn_env (dval release 9) (dmem release) /\
  value_is dyn_env (dval release 9) ty_box 4%Z /\ t_size (dyn_env ty_box) = 8 /\
  live_vec release dyn_env (dvec release 0) (dmem release) /\
  contents dyn_env (dvec release 0) ty_string [1; 2; 3]%Z /\ nthN [1; 2; 3]%Z 2 = Some 3%Z /\
  exists off m, vd_get_mut release 2 (dvec release 0) = Ret (off, m).
Proof.
  do 7 (split; [hold|]). do 2 eexists. vm_compute. reflexivity.
Qed.

(** ** C77 Containers that implement [Eq] are equal to themselves *)

@@ c77_reflexive_partial
Example c77_reflexive_ex :
  types_ok dyn_env /\ (forall x, t_eq (dyn_env ty_string) x x = true) /\
  live_vec release dyn_env (dvec release 0) (dmem release) /\
  contents dyn_env (dvec release 0) ty_string [1; 2; 3]%Z.
Proof. split; [hold|]. split; [intros x; apply Z.eqb_refl|]. hold. Qed.
@@ c77_irreflexive
Example c77_irreflexive_ex :
  types_ok dyn_env /\ t_eq (dyn_env ty_f32) 99%Z 99%Z = false /\
  live_vec release dyn_env (dvec release 13) (dmem release) /\
  contents dyn_env (dvec release 13) ty_f32 [99]%Z /\ In 99%Z [99]%Z.
Proof. do 4 (split; [hold|]). now left. Qed.

(** The table [EqVTable], for which vectors and values implement [Eq], can be built for a type that
    is only [PartialEq], such as [f32]. *)
Theorem c77_eq_refuted :
  exists (E : HasEq EqVTable) v w w1 (b : vecdyn EqVTable) w2 (x : value EqVTable) w3,
    vec_make dyn_env ty_f32 1 [99]%Z w = (Ret v, w1) /\
    vd_from_vec dyn_env ty_f32 v w1 = (Ret b, w2) /\ vd_eq release dyn_env b b = Ret false /\
    bv_new dyn_env ty_f32 99%Z w2 = (x, w3) /\ vl_eq dyn_env x x = Ret false.
Proof. exists _. eexists. exists w0. do 5 eexists. hold. Qed.
Print Assumptions c77_eq_refuted.

(** ** C82 Programs over VecDyns and values that catch panics *)

@@ c82_programs
(** A clone that panics in the middle of a vector, an out-of-range rotation that loses the contents
    of a vector, uses of the lost vector, a value whose clone panics, an out-of-range assignment
    that uses up the value; the other vector and the other values stay right. *)
Definition p_mishaps : list dstep :=
  [DFromSlice ty_string [1; 2; 3]%Z; DFromVec ty_moody 2 [5; 13]%Z; DClone 1;
   DCall 0 (VRotL 4); DCall 0 VLen; DCall 0 (VReadAs ty_string); DClone 1;
   OBox ty_moody 13%Z; OClone 2; OBox ty_moody 6%Z; DAssign 1 9 3; OEq 3 3;
   DAssign 1 0 2; DCall 1 (VReadAs ty_moody); DFromSlice ty_marker [0]%Z; DDrop 0; DDrop 0; DDrop 1].
Example c82_programs_ex : forall P, P = dev \/ P = release ->
  types_ok dyn_env /\ Forall (dstep_typed dyn_env) p_mishaps /\
  dyn_in_range P dyn_env p_mishaps (d_init (V := AllVTable)) /\
  map step_report (fst (drun P dyn_env p_mishaps (d_init (V := AllVTable)))) =
    [Some (DObs AUnit); Some (DObs AUnit); None; None; Some (DObs (ANum 0)); Some (DObs (AVals None)); None;
     Some (DObs AUnit); None; Some (DObs AUnit); None; Some DInvalid; Some (DObs AUnit);
     Some (DObs (AVals (Some [13; 13]%Z))); None; None; Some DInvalid; Some (DObs AUnit)].
Proof.
  intros P [-> | ->]; (csplit; [apply dyn_env_ok|typed_dprog|vm_compute; intuition (try discriminate; auto)
    |vm_compute; reflexivity]).
Qed.

(** What DynPanicSpec.v implies: a step leaves the objects it does not name alone ... *)
@@ c82_other_objects
Example c82_other_objects_ex :
  dacts dyn_env (LState [Some (LVec ty_string [1]%Z); Some (LVec ty_tag [2]%Z)] []) (DCall 0 (VRotL 9)) None
    (LState [Some LLost; Some (LVec ty_tag [2]%Z)] []) /\ ~ In 1%nat (names (DCall 0 (VRotL 9))).
Proof.
  split; [|cbn; intuition discriminate].
  apply D_panic. exists None, []. split; [|reflexivity].
  split; [reflexivity|]. left. csplit; [reflexivity|vm_compute; discriminate|reflexivity].
Qed.

(** ... a vector without contents stays so until it is dropped or converted ... *)
@@ c82_lost
Example c82_lost_ex :
  dacts dyn_env (LState [Some LLost] []) (DDrop 0) (Some (DObs AUnit)) (LState [None] []).
Proof.
  apply D_lost; [exists 0%nat; cbn; auto|reflexivity|exists []; split; [constructor|reflexivity]].
Qed.

(** ... and the steps that name no such vector do what the lists say. *)
@@ c82_returns
Example c82_returns_ex :
  dacts dyn_env (LState [Some LLost; Some (LVec ty_moody [5; 13]%Z)] []) (DClone 1) None
    (LState [Some LLost; Some (LVec ty_moody [5; 13]%Z)] [EvClone ty_moody 5%Z 5%Z]) /\
  ~ uses_lost (LState [Some LLost; Some (LVec ty_moody [5; 13]%Z)] []) (DClone 1).
Proof.
  split.
  - apply D_panic. exists [5]%Z. eexists. split; vm_compute; reflexivity.
  - intros (h & [<-|[]] & HE). discriminate.
Qed.

(** ** C83 Whatever the position, only whole elements are reached *)

@@ c83_vec_any_build
@@ c83_vec_release_partial
@@ c83_vec_torn_refuted
Example c83_vec_ex :
  types_ok dyn_env /\ unchecked release /\
  live_vec release dyn_env (dvec release 0) (dmem release) /\
  contents dyn_env (dvec release 0) ty_string [1; 2; 3]%Z /\ 2 <= lenN [1; 2; 3]%Z /\
  ~ (exists m, m * t_size (dyn_env ty_string) = 2 ^ 64).
Proof.
  csplit; try solve [hold]; [now split|].
  intros [m Hm]. change (t_size (dyn_env ty_string)) with 24 in Hm.
  apply (f_equal (fun n => n mod 3)) in Hm. replace (m * 24) with (m * 8 * 3) in Hm by lia.
  rewrite N.mod_mul in Hm by discriminate. vm_compute in Hm. discriminate.
Qed.

(** ** C84 Pushing allocates only logarithmically often *)

@@ c84_vec_push_as
@@ c84_vec_with_capacity
Example c84_vec_ex :
  types_ok dyn_env /\ live_vec release dyn_env (dvec release 0) (dmem release) /\
  contents dyn_env (dvec release 0) ty_string [1; 2; 3]%Z /\
  grown (t_size (dyn_env ty_string)) (lenN ([1; 2; 3] ++ repeat 7 40)%Z) * t_size (dyn_env ty_string)
    <= max_alloc (t_align (dyn_env ty_string)) /\
  allocations (dmem release)
    (snd (push_each (vd_push_as release dyn_env ty_string) (repeat 7%Z 40) (dvec release 0) (dmem release))) 4.
Proof. csplit; try solve [hold]. all: vm_compute; first [discriminate|reflexivity]. Qed.

(** ** C85 Programs with destructors that panic *)

(** Any destructor may panic at any moment.  Without [clear] and [resize] every value is still
    dropped at most once. *)
@@ c85_accounting
(** A vector is dropped, filled, overwritten; an owned value is assigned; all of these panic. *)
Definition p_edgy : list dstep :=
  [DFromVec ty_string 4 [1; 66; 2]%Z; DCall 0 (VFill ty_string 7%Z); DCall 0 (VReadAs ty_string);
   DFromVec ty_string 2 [4; 66; 3]%Z; DDrop 1; OBox ty_string 66%Z; OBox ty_string 8%Z; OAssign 2 3;
   DWithSize ty_string 0 66%Z; DFromVec ty_string 2 [66; 9]%Z;
   DCall 4 (VCloneFromSlice ty_string [20; 21]%Z); DIntoVec 4 ty_string; DDrop 0].
Example c85_ex :
  wf_tenv edgy_env /\ clones_ok edgy_env /\ Forall (dstep_typed edgy_env) p_edgy /\
  dyn_in_range release edgy_env p_edgy (d_init (V := AllVTable)) /\
  exists st, drun release edgy_env p_edgy (d_init (V := AllVTable)) =
    ([Ret (DObs AUnit); Panic PUser; Ret (DObs (AVals (Some [7; 7; 2]%Z))); Ret (DObs AUnit); Panic PUser;
      Ret (DObs AUnit); Ret (DObs AUnit); Panic PUser; Panic PUser; Ret (DObs AUnit); Panic PUser;
      Ret (DObs (AVals (Some [20; 9]%Z))); Ret (DObs AUnit)], st) /\
    none_left_dropped p_edgy (fst (drun release edgy_env p_edgy (d_init (V := AllVTable)))).
Proof.
  csplit; try apply edgy_env_ok; [typed_dprog|vm_compute; intuition (try discriminate; auto)|].
  eexists. split; [vm_compute; reflexivity|].
  intros s p H. vm_compute in H.
  repeat (destruct H as [H|H]; [first [discriminate H|injection H as <- _; reflexivity]|]). contradiction.
Qed.
