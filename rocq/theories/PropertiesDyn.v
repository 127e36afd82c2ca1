(** * PropertiesDyn: the properties of [VecDyn], slices of owned elements and owned values.

    Every theorem is closed by a lemma proved in another file.  Beside each theorem an example
    shows that a concrete case meets its hypotheses.  A theorem whose name ends in [_partial]
    proves part of the property; one ending in [_refuted] shows that the property as stated is
    false of the code.  The words used in the statements are defined in DynReach.v ([live_vec],
    [contents], [lost_vec], [value_is], [events], [freed] ...) and DynSpec.v (the meaning of programs
    on plain lists).  The vectors and values of the examples are those of [p_dyn] in DynExamples.v. *)

From Verif Require Import GrowFacts GrowDynFacts WrapDynFacts DynPanicFacts RoomDynFacts ConvFacts CloneFacts LostFacts LoudFacts RoomDynExamples.

(** Shows that the objects of [p_dyn] are live and hold what they hold. *)
Ltac hold :=
  csplit;
  lazymatch goal with
  | |- types_ok _ => apply dyn_env_ok
  | |- live_vec _ _ _ _ => apply dvec_live; [auto|lia]
  | |- live_vecs _ _ _ _ _ => apply dvecs_live; [auto|lia|lia|lia]
  | |- live_val _ _ _ _ => apply dval_live; [auto|lia]
  | |- live_vals _ _ _ _ _ => apply dvals_live; [auto|lia|lia|lia]
  | |- live_vec_val _ _ _ _ _ => apply dvec_val_live; [auto|lia|lia]
  | |- live_ref _ _ _ _ => apply dref_live; [auto|tauto]
  | |- live_vec_ref _ _ _ _ _ => apply dvec_ref_live; [auto|tauto|tauto]
  | |- live_val_ref _ _ _ _ _ => apply dval_ref_live; [auto|tauto|tauto]
  | |- contents _ _ _ _ => split; [discriminate|vm_compute; reflexivity]
  | |- value_is _ _ _ _ => repeat split; vm_compute; reflexivity
  | |- ref_is _ _ _ _ => split; vm_compute; reflexivity
  | |- room _ _ _ _ => vm_compute; first [left; discriminate | right; discriminate]
  | |- slice_ok _ _ _ => split; [discriminate|vm_compute; discriminate]
  | |- wf_world w0 => apply wf_w0
  | |- ~ odd_growth _ _ _ _ => intros (? & ? & ? & ?); discriminate
  | |- fits _ _ _ => left; vm_compute; discriminate
  | |- is_value _ _ _ => vm_compute; first [reflexivity|discriminate|auto]
  | |- _ <> _ => vm_compute; discriminate
  | |- _ <= _ => vm_compute; discriminate
  | |- _ < _ => vm_compute; reflexivity
  | |- exists _, _ = _ => eexists; vm_compute; reflexivity
  | |- _ = _ => vm_compute; reflexivity
  end.

(** ** C20 Building an empty vector of the type of something else *)

Theorem c20_vecdyn_with_type_from :
  forall (V : Type) (T : FullTable V) (P : profile) (G : tenv), types_ok G ->
  forall t w (m : meta V), wf_world w -> t_size (G t) <> 0 -> taken_from T P G t m ->
  exists (b : vecdyn V) w',
    vd_with_type_from P m w = (Ret b, w') /\ contents G b t [] /\ vd_len b = 0 /\
    vd_element_type_id b = t /\ vd_vtable b = build_vtable (V := V) t /\ events w [] w'.
Proof. exact c20_vecdyn_with_type_from_fact. Qed.
Print Assumptions c20_vecdyn_with_type_from.
(** The hypotheses of [taken_from] for four sources. *)
Example c20_vecdyn_with_type_from_ex :
  types_ok dyn_env /\ wf_world w0 /\ t_size (dyn_env ty_string) <> 0 /\
  live_vec release dyn_env (dvec release 1) (dmem release) /\
  contents dyn_env (dvec release 1) ty_string [1; 2; 3]%Z /\
  live_ref release dyn_env (dref release (FromVec 1 2)) (dmem release) /\
  ref_is dyn_env (dref release (FromVec 1 2)) ty_string 3%Z /\
  live_val release dyn_env (dval release 5) (dmem release) /\
  value_is dyn_env (dval release 5) ty_string 7%Z.
Proof. hold. Qed.

(** ** C25 Upcasting vectors, references and values *)

Theorem c25_vecdyn_upcast :
  forall (V U : Type) (f : V -> U) (P : profile) (G : tenv) (b : vecdyn V),
  (forall t xs, contents G b t xs <-> contents G (vd_upcast f b) t xs) /\
  vd_vtable (vd_upcast f b) = f (vd_vtable b) /\
  (forall (DV : HasDrop V) (DU : HasDrop U), drop_fn (f (vd_vtable b)) = drop_fn (vd_vtable b) ->
     (forall w, vd_drop P G (vd_upcast f b) w = vd_drop P G b w) /\
     (forall w, vd_clear P G (vd_upcast f b) w = upcast_self f (vd_clear P G b w))) /\
  (forall (CV : HasClone V) (CU : HasClone U),
     clone_into_raw_fn (f (vd_vtable b)) = clone_into_raw_fn (vd_vtable b) ->
     (forall w, vd_clone P G (vd_upcast f b) w = upcast_result f (vd_clone P G b w)) /\
     (forall r w, vd_push_cloned P G (vr_upcast f r) (vd_upcast f b) w = upcast_self f (vd_push_cloned P G r b w))) /\
  (forall (HV : HasHash V) (HU : HasHash U), hash_fn (f (vd_vtable b)) = hash_fn (vd_vtable b) ->
     vd_hash P G (vd_upcast f b) = vd_hash P G b) /\
  (forall (FV : HasDebug V) (FU : HasDebug U), fmt_fn (f (vd_vtable b)) = fmt_fn (vd_vtable b) ->
     vd_fmt P G (vd_upcast f b) = vd_fmt P G b) /\
  (forall (EV : HasPartialEq V) (EU : HasPartialEq U), eq_fn (f (vd_vtable b)) = eq_fn (vd_vtable b) ->
     forall b', vd_eq P G (vd_upcast f b) (vd_upcast f b') = vd_eq P G b b').
Proof. exact c25_vecdyn_upcast_fact. Qed.
Print Assumptions c25_vecdyn_upcast.
Theorem c25_value_ref_upcast :
  forall (V U : Type) (f : V -> U) (G : tenv) (r : vref V),
  (forall t, vr_downcast G t (vr_upcast f r) = vr_downcast G t r) /\
  vr_type_id (vr_upcast f r) = vr_type_id r /\
  vt_as_ref (vr_vtable (vr_upcast f r)) = f (vt_as_ref (vr_vtable r)) /\
  (forall (EV : HasPartialEq V) (EU : HasPartialEq U),
     eq_fn (f (vt_as_ref (vr_vtable r))) = eq_fn (vt_as_ref (vr_vtable r)) ->
     forall r', vr_eq G (vr_upcast f r) (vr_upcast f r') = vr_eq G r r') /\
  (forall (EV : HasHash V) (EU : HasHash U),
     hash_fn (f (vt_as_ref (vr_vtable r))) = hash_fn (vt_as_ref (vr_vtable r)) ->
     vr_hash G (vr_upcast f r) = vr_hash G r) /\
  (forall (EV : HasDebug V) (EU : HasDebug U),
     fmt_fn (f (vt_as_ref (vr_vtable r))) = fmt_fn (vt_as_ref (vr_vtable r)) ->
     vr_fmt G (vr_upcast f r) = vr_fmt G r) /\
  m_elem (meta_of_vref (vr_upcast f r)) = m_elem (meta_of_vref r) /\
  m_vtable (meta_of_vref (vr_upcast f r)) = f (m_vtable (meta_of_vref r)).
Proof. exact c25_value_ref_upcast_fact. Qed.
Print Assumptions c25_value_ref_upcast.
Theorem c25_value_mut_upcast :
  forall (V U : Type) (f : V -> U) (G : tenv) (m : vmut V),
  (forall t, vm_downcast G t (vm_upcast f m) = vm_downcast G t m) /\
  vm_type_id (vm_upcast f m) = vm_type_id m /\
  vt_as_ref (vm_vtable (vm_upcast f m)) = f (vt_as_ref (vm_vtable m)) /\
  (forall m', vm_swap (vm_upcast f m) (vm_upcast f m') =
     let '(o, a, b) := vm_swap m m' in (o, vm_upcast f a, vm_upcast f b)) /\
  (forall (CV : HasClone V) (CU : HasClone U),
     clone_from_fn (f (vt_as_ref (vm_vtable m))) = clone_from_fn (vt_as_ref (vm_vtable m)) ->
     forall r w, vm_clone_from_other G (vm_upcast f m) (vr_upcast f r) w =
       let '(o, a, w') := vm_clone_from_other G m r w in (o, vm_upcast f a, w')).
Proof. exact c25_value_mut_upcast_fact. Qed.
Print Assumptions c25_value_mut_upcast.
Theorem c25_value_upcast :
  forall (V : Type) (T : FullTable V) (U : Type) (TU : FullTable U) (P : profile) (G : tenv), types_ok G ->
  forall (f : V -> U), (forall t, f (build_vtable t) = build_vtable t) ->
  forall (v : value V) w t x, live_val P G v w -> value_is G v t x ->
  exists v' w', vl_upcast f v w = (Ret v', w') /\ value_is G v' t x /\ vl_store v' = vl_store v /\
    vl_table v' = f (vl_table v) /\ events w [] w' /\
    Permutation (val_blocks v ++ w_live w') (val_blocks v' ++ w_live w) /\
    vl_hash G v' = vl_hash G v /\ vl_fmt G v' = vl_fmt G v /\
    exists w'', vl_drop G v' w' = (Ret tt, w'') /\ events w' (drops G t [x]) w'' /\
                freed w' (val_blocks v') w''.
Proof. exact c25_value_upcast_fact. Qed.
Print Assumptions c25_value_upcast.
(** A base table is the same table under another name; here it is the table itself. *)
Example c25_value_upcast_ex :
  types_ok dyn_env /\ live_val release dyn_env (dval release 5) (dmem release) /\
  value_is dyn_env (dval release 5) ty_string 7%Z.
Proof. hold. Qed.

(** ** C28 VecDyn neither double-drops nor loses values *)

Theorem c28_accounting_partial :
  forall (V : Type) (T : FullTable V) (P : profile) (G : tenv), types_ok G ->
  forall prog rs st,
  Forall (dstep_typed G) prog -> dyn_in_range P G prog (d_init (V := V)) ->
  drun P G prog (d_init (V := V)) = (rs, st) ->
  Forall safe rs /\ List.length rs = List.length prog /\
  exists lost,
    Permutation (given G prog rs ++ cloned G (w_trace (d_world st)))
                (stored G st ++ taken G prog rs ++ dropped G (w_trace (d_world st)) ++ lost).
Proof. exact c28_accounting_partial_fact. Qed.
Print Assumptions c28_accounting_partial.
Theorem c28_exact_partial :
  forall (V : Type) (T : FullTable V) (P : profile) (G : tenv), types_ok G ->
  forall prog rs st,
  Forall (dstep_typed G) prog -> dyn_in_range P G prog (d_init (V := V)) ->
  drun P G prog (d_init (V := V)) = (map Ret rs, st) -> keeps_all prog rs ->
  Permutation (given G prog (map Ret rs) ++ cloned G (w_trace (d_world st)))
              (stored G st ++ taken G prog (map Ret rs) ++ dropped G (w_trace (d_world st))) /\
  Permutation (w_live (d_world st)) (obj_blocks_of st).
Proof. exact c28_exact_partial_fact. Qed.
Print Assumptions c28_exact_partial.
(** A program with vectors, boxed and small values, clones, moves and drops, in which no call panics
    and nothing is lost. *)
Definition p_keep : list dstep :=
  p_dyn ++ [DPush 3 7; DAssign 0 1 5; DCloneFrom 1 0 (FromVal 6); OSwapVals 8 10; OClone 9;
            DCall 0 (VResize ty_string 2 50%Z); DCall 0 (VReadAs ty_string); DAppend 0 1;
            DCall 1 VLen; DIntoVec 0 ty_string; ODowncast 9 ty_box; ODrop 6; DDrop 3].
Example c28_exact_ex : forall P, P = dev \/ P = release ->
  Forall (dstep_typed dyn_env) p_keep /\ dyn_in_range P dyn_env p_keep (d_init (V := AllVTable)) /\
  exists rs st, drun P dyn_env p_keep (d_init (V := AllVTable)) = (map Ret rs, st) /\ keeps_all p_keep rs.
Proof.
  intros P [-> | ->]; (csplit; [typed_dprog|vm_compute; intuition (try discriminate; auto)|]);
    (do 2 eexists; split; [vm_compute; match goal with |- (?l, ?s) = _ =>
       let rec strip l := lazymatch l with
         | nil => constr:(@nil dreport)
         | Ret ?x :: ?r => let r' := strip r in constr:(x :: r') end in
       let rs := strip l in
       instantiate (1 := s); instantiate (1 := rs) end; reflexivity
      |repeat constructor]).
Qed.
(** A program in which a user's clone panics, a push_cloned loses a vector, and a downcast to the
    wrong type leaks. *)
Definition p_panicky : list dstep :=
  p_dyn ++ [DPushCloned 2 (FromVal 11); DCall 2 VLen; DClone 0; ODowncast 5 ty_u8; DIntoVec 1 ty_u8].
Example c28_accounting_ex : forall P, P = dev \/ P = release ->
  Forall (dstep_typed dyn_env) p_panicky /\
  dyn_in_range P dyn_env p_panicky (d_init (V := AllVTable)) /\
  In (Panic PUser) (fst (drun P dyn_env p_panicky (d_init (V := AllVTable)))).
Proof.
  intros P [-> | ->]; (csplit; [typed_dprog|vm_compute; intuition (try discriminate; auto)
                              |vm_compute; tauto]).
Qed.

(** Values do get lost: after [into_vec] with another type nothing was dropped, nothing is stored and
    nothing was handed back. *)
Theorem c28_accounting_refuted :
  exists prog rs st,
    Forall (dstep_typed dyn_env) prog /\
    drun release dyn_env prog (d_init (V := AllVTable)) = (map Ret rs, st) /\
    given dyn_env prog (map Ret rs) = [(ty_string, 1); (ty_string, 2)]%Z /\
    stored dyn_env st = [] /\ taken dyn_env prog (map Ret rs) = [] /\ w_trace (d_world st) = [].
Proof.
  exists [DFromVec ty_string 2 [1; 2]%Z; DIntoVec 0 ty_u8], [DObs AUnit; DObs (AVals None)]. eexists.
  csplit; [typed_dprog| | | | |]; vm_compute; reflexivity.
Qed.
Print Assumptions c28_accounting_refuted.

(** What a panic of a growing call costs when there is no room. *)
Theorem c28_push_as_no_room :
  forall (V : Type) (T : FullTable V) (P : profile) (G : tenv), types_ok G ->
  forall (b : vecdyn V) w t xs x,
  live_vec P G b w -> contents G b t xs -> vc_capacity b <= lenN xs ->
  max_alloc (t_align (G t)) <
    N.max (min_non_zero_cap (t_size (G t))) (N.max (lenN xs * 2) (lenN xs + 1)) * t_size (G t) ->
  exists p b' w', vd_push_as P G t x b w = (Panic p, b', w') /\ lost_vec G b' /\
                  w_trace w' = w_trace w ++ drops G t [x] ++ drops G t xs.
Proof. exact c28_push_as_no_room_fact. Qed.
Print Assumptions c28_push_as_no_room.
Example c28_push_as_no_room_ex :
  types_ok vast_env /\ exists (b : vecdyn AllVTable) w,
    live_vec release vast_env b w /\ contents vast_env b 1 [7]%Z /\ vc_capacity b <= lenN [7]%Z /\
    max_alloc (t_align (vast_env 1)) <
      N.max (min_non_zero_cap (t_size (vast_env 1))) (N.max (lenN [7]%Z * 2) (lenN [7]%Z + 1)) *
      t_size (vast_env 1).
Proof.
  split; [apply vast_env_ok|]. destruct vast_live as (b & w & Hb & _ & Hc & Hk). exists b, w.
  split; [exact Hb|split; [exact Hc|split; [rewrite Hk; vm_compute; discriminate|vm_compute; reflexivity]]].
Qed.

Theorem c28_append_no_room :
  forall (V : Type) (T : FullTable V) (P : profile) (G : tenv), types_ok G ->
  forall (b b' : vecdyn V) w t xs ys,
  live_vecs P G b b' w -> contents G b t xs -> contents G b' t ys ->
  ~ room G t (vc_capacity b) (lenN xs + lenN ys) \/ odd_growth G t (vc_capacity b) (lenN xs + lenN ys) ->
  exists p b1 b1' w',
    vd_append P b b' w = (Panic p, b1, b1', w') /\ lost_vec G b1 /\ w_trace w' = w_trace w /\
    (~ room G t (vc_capacity b) (lenN xs + lenN ys) -> lost_vec G b1') /\
    (odd_growth G t (vc_capacity b) (lenN xs + lenN ys) -> contents G b1' t []).
Proof. exact c28_append_no_room_fact. Qed.
Print Assumptions c28_append_no_room.
Example c28_append_no_room_ex :
  let prog := [DFromVec ty_u8x3 1 [7]%Z; DFromVec ty_u8x3 1 [8]%Z] in
  let st := snd (drun release dyn_env prog (d_init (V := AllVTable))) in
  exists b b', live_vecs release dyn_env b b' (d_world st) /\
    contents dyn_env b ty_u8x3 [7]%Z /\ contents dyn_env b' ty_u8x3 [8]%Z /\
    odd_growth dyn_env ty_u8x3 (vc_capacity b) (lenN [7]%Z + lenN [8]%Z).
Proof.
  intros prog st. do 2 eexists. split.
  - exists st, 0%nat, 1%nat.
    split; [|split; [discriminate|split; [vm_compute; reflexivity|split; [vm_compute; reflexivity|reflexivity]]]].
    exists prog. subst prog st.
    split; [typed_dprog|split; [vm_compute; intuition (try discriminate; auto)|reflexivity]].
  - split; [split; [discriminate|vm_compute; reflexivity]|].
    split; [split; [discriminate|vm_compute; reflexivity]|].
    unfold odd_growth. csplit; vm_compute; reflexivity.
Qed.

(** ** C29 Dropping a VecDyn *)

Theorem c29_drop :
  forall (V : Type) (T : FullTable V) (P : profile) (G : tenv), types_ok G ->
  forall (b : vecdyn V) w t xs,
  live_vec P G b w -> contents G b t xs ->
  exists w', vd_drop P G b w = (Ret tt, w') /\ events w (drops G t xs) w' /\
             freed w (buf_block b) w'.
Proof. exact c29_drop_fact. Qed.
Print Assumptions c29_drop.
Example c29_drop_ex :
  types_ok dyn_env /\ live_vec release dyn_env (dvec release 0) (dmem release) /\
  contents dyn_env (dvec release 0) ty_string [1; 2; 3]%Z.
Proof. hold. Qed.

(** ** C31 Cloning a VecDyn *)

Theorem c31_clone :
  forall (V : Type) (T : FullTable V) (P : profile) (G : tenv), types_ok G ->
  forall (b : vecdyn V) w t xs cs tr,
  live_vec P G b w -> contents G b t xs -> clone_seq G t xs (w_trace w) = (cs, true, tr) ->
  exists b' w', vd_clone P G b w = (Ret b', w') /\ contents G b' t cs /\
                vd_vtable b' = vd_vtable b /\ w_trace w' = tr /\ allocated w (buf_block b') w'.
Proof. exact c31_clone_fact. Qed.
Print Assumptions c31_clone.
Example c31_clone_ex :
  types_ok dyn_env /\ live_vec dev dyn_env (dvec dev 0) (dmem dev) /\
  contents dyn_env (dvec dev 0) ty_string [1; 2; 3]%Z /\
  exists tr, clone_seq dyn_env ty_string [1; 2; 3]%Z (w_trace (dmem dev)) = ([1; 2; 3]%Z, true, tr).
Proof. hold. Qed.

Theorem c31_clone_panics :
  forall (V : Type) (T : FullTable V) (P : profile) (G : tenv), types_ok G ->
  forall (b : vecdyn V) w t xs cs tr,
  live_vec P G b w -> contents G b t xs -> clone_seq G t xs (w_trace w) = (cs, false, tr) ->
  exists w', vd_clone P G b w = (Panic PUser, w') /\ w_trace w' = tr /\
             dropped G tr = dropped G (w_trace w) /\ Permutation (w_live w) (w_live w').
Proof. exact c31_clone_panics_fact. Qed.
Print Assumptions c31_clone_panics.
Example c31_clone_panics_ex :
  types_ok dyn_env /\ live_vec dev dyn_env (dvec dev 2) (dmem dev) /\
  contents dyn_env (dvec dev 2) ty_moody [1; 13]%Z /\
  exists tr, clone_seq dyn_env ty_moody [1; 13]%Z (w_trace (dmem dev)) = ([1]%Z, false, tr).
Proof. hold. Qed.

(** ** C32 Pushing a boxed value *)

Theorem c32_push_partial :
  forall (V : Type) (T : FullTable V) (P : profile) (G : tenv), types_ok G ->
  forall (b : vecdyn V) (v : value V) bx w t xs x,
  live_vec_val P G b v w -> contents G b t xs -> value_is G v t x -> vl_store v = Boxed bx ->
  t_size (G t) = 1 -> t_align (G t) = 1 -> room G t (vc_capacity b) (lenN xs + 1) ->
  exists b' w', vd_push P G v b w = (Ret true, b', w') /\ contents G b' t (xs ++ [x]) /\
                vd_vtable b' = vd_vtable b /\ events w [] w' /\
                Permutation (buf_block b ++ val_blocks v ++ w_live w') (buf_block b' ++ w_live w).
Proof. exact c32_push_partial_fact. Qed.
Print Assumptions c32_push_partial.
Example c32_push_ex :
  types_ok dyn_env /\ live_vec_val release dyn_env (dvec release 3) (dval release 7) (dmem release) /\
  contents dyn_env (dvec release 3) ty_tag [1; 2]%Z /\ value_is dyn_env (dval release 7) ty_tag 9%Z /\
  (exists bx, vl_store (dval release 7) = Boxed bx) /\
  t_size (dyn_env ty_tag) = 1 /\ t_align (dyn_env ty_tag) = 1 /\
  room dyn_env ty_tag (vc_capacity (dvec release 3)) (lenN [1; 2]%Z + 1).
Proof. hold. Qed.

Theorem c32_other_type :
  forall (V : Type) (T : FullTable V) (P : profile) (G : tenv), types_ok G ->
  forall (b : vecdyn V) (v : value V) w t xs t' x,
  live_vec_val P G b v w -> contents G b t xs -> value_is G v t' x -> t' <> t ->
  exists w', vd_push P G v b w = (Ret false, b, w') /\ events w (drops G t' [x]) w' /\
             freed w (val_blocks v) w'.
Proof. exact c32_other_type_fact. Qed.
Print Assumptions c32_other_type.
Example c32_other_type_ex :
  types_ok dyn_env /\ live_vec_val release dyn_env (dvec release 0) (dval release 7) (dmem release) /\
  contents dyn_env (dvec release 0) ty_string [1; 2; 3]%Z /\ value_is dyn_env (dval release 7) ty_tag 9%Z /\
  ty_tag <> ty_string.
Proof. hold. Qed.

(** What is wrong with all other types: the box is freed with alignment 1, which is undefined
    behaviour if the type's alignment is larger; and a type that is larger than its alignment never
    gets in. *)
Theorem c32_wrong_layout :
  forall (V : Type) (T : FullTable V) (P : profile) (G : tenv), types_ok G ->
  forall (b : vecdyn V) (v : value V) bx w t xs x,
  live_vec_val P G b v w -> contents G b t xs -> value_is G v t x -> vl_store v = Boxed bx ->
  t_align (G t) <> 1 ->
  exists u b' w', vd_push P G v b w = (UB u, b', w').
Proof. exact c32_wrong_layout_fact. Qed.
Print Assumptions c32_wrong_layout.
Theorem c32_push_never_works :
  forall (V : Type) (T : FullTable V) (P : profile) (G : tenv), types_ok G ->
  forall (b : vecdyn V) (v : value V) bx w t xs x,
  live_vec_val P G b v w -> contents G b t xs -> value_is G v t x -> vl_store v = Boxed bx ->
  t_align (G t) = 1 -> t_size (G t) <> 1 ->
  exists p b' w', vd_push P G v b w = (Panic p, b', w') /\ lost_vec G b' /\
                  dropped G (w_trace w') = dropped G (w_trace w).
Proof. exact c32_push_never_works_fact. Qed.
Print Assumptions c32_push_never_works.
Example c32_wrong_layout_ex :
  types_ok dyn_env /\ live_vec_val release dyn_env (dvec release 0) (dval release 5) (dmem release) /\
  contents dyn_env (dvec release 0) ty_string [1; 2; 3]%Z /\ value_is dyn_env (dval release 5) ty_string 7%Z /\
  (exists bx, vl_store (dval release 5) = Boxed bx) /\ t_align (dyn_env ty_string) <> 1.
Proof. hold. Qed.
Example c32_push_never_works_ex :
  types_ok dyn_env /\ live_vec_val release dyn_env (dvec release 4) (dval release 8) (dmem release) /\
  contents dyn_env (dvec release 4) ty_u8x3 [7]%Z /\ value_is dyn_env (dval release 8) ty_u8x3 5%Z /\
  (exists bx, vl_store (dval release 8) = Boxed bx) /\ t_align (dyn_env ty_u8x3) = 1 /\
  t_size (dyn_env ty_u8x3) <> 1.
Proof. hold. Qed.

Theorem c32_push_refuted :
  exists (b : vecdyn AllVTable) v w u b' w',
    live_vec_val release dyn_env b v w /\ contents dyn_env b ty_string [1; 2; 3]%Z /\
    value_is dyn_env v ty_string 7%Z /\ vd_push release dyn_env v b w = (UB u, b', w').
Proof.
  exists (dvec release 0), (dval release 5), (dmem release). do 3 eexists. hold.
Qed.
Print Assumptions c32_push_refuted.

(** After a caught panic the vector is a vector of [()]; pushing a boxed [()] onto it reads outside
    the box. *)
Theorem c32_unit_push_refuted :
  exists prog, Forall (dstep_typed dyn_env) prog /\
    forall P, P = dev \/ P = release ->
      In (UB UbOob) (fst (drun P dyn_env prog (d_init (V := AllVTable)))).
Proof.
  exists [DFromVec ty_moody 4 [1]%Z; OBox ty_moody 13%Z; DPushCloned 0 (FromVal 1);
          OBox ty_unit 0%Z; DPush 0 2].
  split; [typed_dprog|]. intros P [-> | ->]; vm_compute; tauto.
Qed.
Print Assumptions c32_unit_push_refuted.

(** ** C33 push_cloned *)

Theorem c33_push_cloned_partial :
  forall (V : Type) (T : FullTable V) (P : profile) (G : tenv), types_ok G ->
  forall (b : vecdyn V) (r : vref V) w t xs x c,
  live_vec_ref P G b r w -> contents G b t xs -> ref_is G r t x ->
  t_clone (G t) (w_trace w) x = Some c ->
  room G t (vc_capacity b) (lenN xs + 1) -> ~ odd_growth G t (vc_capacity b) (lenN xs + 1) ->
  exists b' w', vd_push_cloned P G r b w = (Ret true, b', w') /\ contents G b' t (xs ++ [c]) /\
                vd_vtable b' = vd_vtable b /\ events w [EvClone t x c] w'.
Proof. exact c33_push_cloned_partial_fact. Qed.
Print Assumptions c33_push_cloned_partial.
Example c33_push_cloned_ex :
  types_ok dyn_env /\
  live_vec_ref release dyn_env (dvec release 0) (dref release (FromVec 1 2)) (dmem release) /\
  contents dyn_env (dvec release 0) ty_string [1; 2; 3]%Z /\
  ref_is dyn_env (dref release (FromVec 1 2)) ty_string 3%Z /\
  t_clone (dyn_env ty_string) (w_trace (dmem release)) 3%Z = Some 3%Z /\
  room dyn_env ty_string (vc_capacity (dvec release 0)) (lenN [1; 2; 3]%Z + 1) /\
  ~ odd_growth dyn_env ty_string (vc_capacity (dvec release 0)) (lenN [1; 2; 3]%Z + 1).
Proof. hold. Qed.

Theorem c33_other_type :
  forall (V : Type) (T : FullTable V) (P : profile) (G : tenv), types_ok G ->
  forall (b : vecdyn V) (r : vref V) w t xs,
  live_vec_ref P G b r w -> contents G b t xs -> vr_type_id r <> t ->
  vd_push_cloned P G r b w = (Ret false, b, w).
Proof. exact c33_other_type_fact. Qed.
Print Assumptions c33_other_type.
Example c33_other_type_ex :
  types_ok dyn_env /\
  live_vec_ref dev dyn_env (dvec dev 0) (dref dev (FromVal 11)) (dmem dev) /\
  contents dyn_env (dvec dev 0) ty_string [1; 2; 3]%Z /\ vr_type_id (dref dev (FromVal 11)) <> ty_string.
Proof. hold. Qed.

(** When the element's clone panics, push_cloned does change the other elements: all are lost. *)
Theorem c33_panicking_clone_loses :
  forall (V : Type) (T : FullTable V) (P : profile) (G : tenv), types_ok G ->
  forall (b : vecdyn V) (r : vref V) w t xs x,
  live_vec_ref P G b r w -> contents G b t xs -> ref_is G r t x ->
  t_clone (G t) (w_trace w) x = None ->
  room G t (vc_capacity b) (lenN xs + 1) ->
  exists b' w', vd_push_cloned P G r b w = (Panic PUser, b', w') /\ lost_vec G b' /\
                w_trace w' = w_trace w.
Proof. exact c33_panicking_clone_loses_fact. Qed.
Print Assumptions c33_panicking_clone_loses.
Example c33_panicking_clone_loses_ex :
  types_ok dyn_env /\
  live_vec_ref dev dyn_env (dvec dev 2) (dref dev (FromVal 11)) (dmem dev) /\
  contents dyn_env (dvec dev 2) ty_moody [1; 13]%Z /\
  ref_is dyn_env (dref dev (FromVal 11)) ty_moody 13%Z /\
  t_clone (dyn_env ty_moody) (w_trace (dmem dev)) 13%Z = None /\
  room dyn_env ty_moody (vc_capacity (dvec dev 2)) (lenN [1; 13]%Z + 1).
Proof. hold. Qed.

Theorem c33_push_cloned_no_room :
  forall (V : Type) (T : FullTable V) (P : profile) (G : tenv), types_ok G ->
  forall (b : vecdyn V) (r : vref V) w t xs x,
  live_vec_ref P G b r w -> contents G b t xs -> ref_is G r t x ->
  ~ room G t (vc_capacity b) (lenN xs + 1) ->
  exists p b' w', vd_push_cloned P G r b w = (Panic p, b', w') /\ lost_vec G b' /\
                  w_trace w' = w_trace w.
Proof. exact c33_push_cloned_no_room_fact. Qed.
Print Assumptions c33_push_cloned_no_room.
Example c33_push_cloned_no_room_ex :
  types_ok vast_env /\ exists (b : vecdyn AllVTable) w,
    live_vec_ref release vast_env b (vr_new vast_env 1 8%Z) w /\ contents vast_env b 1 [7]%Z /\
    ref_is vast_env (vr_new (V := AllVTable) vast_env 1 8%Z) 1 8%Z /\
    ~ room vast_env 1 (vc_capacity b) (lenN [7]%Z + 1).
Proof.
  split; [apply vast_env_ok|]. destruct vast_live as (b & w & _ & Hr & Hc & Hk). exists b, w.
  split; [exact Hr|split; [exact Hc|split; [apply vast_ref|]]]. rewrite Hk.
  intros [H|H]; revert H; vm_compute; intros H; now apply H.
Qed.

Theorem c33_push_cloned_refuted :
  exists (b : vecdyn AllVTable) r w p b' w',
    live_vec_ref release dyn_env b r w /\ contents dyn_env b ty_moody [1; 13]%Z /\
    ref_is dyn_env r ty_moody 13%Z /\
    vd_push_cloned release dyn_env r b w = (Panic p, b', w') /\ vd_len b' = 0.
Proof.
  exists (dvec release 2), (dref release (FromVal 11)), (dmem release). do 3 eexists. hold.
Qed.
Print Assumptions c33_push_cloned_refuted.

(** ** C34 VecDyn::into_vec *)

Theorem c34_into_vec :
  forall (V : Type) (T : FullTable V) (P : profile) (G : tenv), types_ok G ->
  forall (b : vecdyn V) w t xs,
  live_vec P G b w -> contents G b t xs ->
  exists vec, vd_into_vec P G t b w = (Ret (Some vec), w) /\ vec_elems G t vec = Ret xs /\
    vec_block G t vec = buf_block b /\
    exists w', vec_drop G t vec w = (Ret tt, w') /\ events w (drops G t xs) w' /\
               freed w (buf_block b) w'.
Proof. exact c34_into_vec_fact. Qed.
Print Assumptions c34_into_vec.
Example c34_into_vec_ex :
  types_ok dyn_env /\ live_vec release dyn_env (dvec release 0) (dmem release) /\
  contents dyn_env (dvec release 0) ty_string [1; 2; 3]%Z.
Proof. hold. Qed.

(** With another type the memory is freed but no element is dropped. *)
Theorem c34_other_type_loses :
  forall (V : Type) (T : FullTable V) (P : profile) (G : tenv), types_ok G ->
  forall (b : vecdyn V) w t xs t',
  live_vec P G b w -> contents G b t xs -> t' <> t ->
  exists w', vd_into_vec P G t' b w = (Ret None, w') /\ events w [] w' /\ freed w (buf_block b) w'.
Proof. exact c34_other_type_loses_fact. Qed.
Print Assumptions c34_other_type_loses.
Example c34_other_type_loses_ex :
  types_ok dyn_env /\ live_vec release dyn_env (dvec release 0) (dmem release) /\
  contents dyn_env (dvec release 0) ty_string [1; 2; 3]%Z /\ ty_u8 <> ty_string.
Proof. hold. Qed.

Theorem c34_into_vec_refuted :
  exists (b : vecdyn AllVTable) w w',
    live_vec release dyn_env b w /\ contents dyn_env b ty_string [1; 2; 3]%Z /\
    drops dyn_env ty_string [1; 2; 3]%Z = map (EvDrop ty_string) [1; 2; 3]%Z /\
    vd_into_vec release dyn_env ty_u8 b w = (Ret None, w') /\ w_trace w' = w_trace w.
Proof. exists (dvec release 0), (dmem release). eexists. hold. Qed.
Print Assumptions c34_into_vec_refuted.

(** ** C35 Equality of VecDyns and slices *)

Theorem c35_eq_partial :
  forall (V : Type) (T : FullTable V) (P : profile) (G : tenv), types_ok G ->
  forall (b b' : vecdyn V) w w' t xs t' ys,
  live_vec P G b w -> contents G b t xs -> live_vec P G b' w' -> contents G b' t' ys ->
  lenN xs = lenN ys ->
  exists e, vd_eq P G b b' = Ret e /\
    (e = true <-> Forall2 (fun x y => t = t' /\ t_eq (G t) x y = true) xs ys).
Proof. exact c35_eq_partial_fact. Qed.
Print Assumptions c35_eq_partial.
Theorem c35_slice_eq_partial :
  forall (V : Type) (T : FullTable V) (G : tenv), types_ok G ->
  forall t xs t' ys,
  slice_ok G t xs -> slice_ok G t' ys -> lenN xs = lenN ys ->
  exists e, ds_eq G (sl_from_slice G t xs (build_vtable (V := V) t))
                    (sl_from_slice G t' ys (build_vtable t')) = Ret e /\
    (e = true <-> Forall2 (fun x y => t = t' /\ t_eq (G t) x y = true) xs ys).
Proof. exact c35_slice_eq_partial_fact. Qed.
Print Assumptions c35_slice_eq_partial.
Theorem c35_equivalence_partial :
  forall (V : Type) (T : FullTable V) (P : profile) (G : tenv), types_ok G ->
  forall t, (forall x, t_eq (G t) x x = true) ->
            (forall x y, t_eq (G t) x y = t_eq (G t) y x) ->
            (forall x y z, t_eq (G t) x y = true -> t_eq (G t) y z = true -> t_eq (G t) x z = true) ->
  forall (b1 b2 b3 : vecdyn V) w1 w2 w3 xs ys zs,
  live_vec P G b1 w1 -> contents G b1 t xs -> live_vec P G b2 w2 -> contents G b2 t ys ->
  live_vec P G b3 w3 -> contents G b3 t zs -> lenN xs = lenN ys -> lenN ys = lenN zs ->
  vd_eq P G b1 b1 = Ret true /\ vd_eq P G b1 b2 = vd_eq P G b2 b1 /\
  (vd_eq P G b1 b2 = Ret true -> vd_eq P G b2 b3 = Ret true -> vd_eq P G b1 b3 = Ret true).
Proof. exact c35_equivalence_partial_fact. Qed.
Print Assumptions c35_equivalence_partial.
Example c35_eq_ex :
  types_ok dyn_env /\ live_vec release dyn_env (dvec release 0) (dmem release) /\
  contents dyn_env (dvec release 0) ty_string [1; 2; 3]%Z /\
  live_vec release dyn_env (dvec release 1) (dmem release) /\
  contents dyn_env (dvec release 1) ty_string [1; 2; 3]%Z /\ lenN [1; 2; 3]%Z = lenN [1; 2; 3]%Z /\
  slice_ok dyn_env ty_string [1; 2; 3]%Z.
Proof. hold. Qed.
Example c35_equivalence_ex :
  (forall x, t_eq (dyn_env ty_string) x x = true) /\
  (forall x y, t_eq (dyn_env ty_string) x y = t_eq (dyn_env ty_string) y x) /\
  (forall x y z, t_eq (dyn_env ty_string) x y = true -> t_eq (dyn_env ty_string) y z = true ->
                 t_eq (dyn_env ty_string) x z = true).
Proof.
  csplit; intros; cbn in *; [apply Z.eqb_refl|apply Z.eqb_sym|].
  apply Z.eqb_eq in H, H0. apply Z.eqb_eq. congruence.
Qed.

(** What the comparison really computes: only the common prefix counts. *)
Theorem c35_common_prefix :
  forall (V : Type) (T : FullTable V) (P : profile) (G : tenv), types_ok G ->
  forall (b b' : vecdyn V) w w' t xs t' ys,
  live_vec P G b w -> contents G b t xs -> live_vec P G b' w' -> contents G b' t' ys ->
  exists e, vd_eq P G b b' = Ret e /\
    (e = true <-> forall i x y, nthN xs i = Some x -> nthN ys i = Some y ->
                                t = t' /\ t_eq (G t) x y = true).
Proof. exact c35_common_prefix_fact. Qed.
Print Assumptions c35_common_prefix.
Theorem c35_slice_common_prefix :
  forall (V : Type) (T : FullTable V) (G : tenv), types_ok G ->
  forall t xs t' ys,
  slice_ok G t xs -> slice_ok G t' ys ->
  exists e, ds_eq G (sl_from_slice G t xs (build_vtable (V := V) t))
                    (sl_from_slice G t' ys (build_vtable t')) = Ret e /\
    (e = true <-> forall i x y, nthN xs i = Some x -> nthN ys i = Some y ->
                                t = t' /\ t_eq (G t) x y = true).
Proof. exact c35_slice_common_prefix_fact. Qed.
Print Assumptions c35_slice_common_prefix.

Theorem c35_eq_refuted :
  exists (b b' : vecdyn AllVTable) w,
    live_vec release dyn_env b w /\ contents dyn_env b ty_string [1; 2; 3]%Z /\
    live_vec release dyn_env b' w /\ contents dyn_env b' ty_string [1; 2]%Z /\
    vd_eq release dyn_env b b' = Ret true.
Proof. exists (dvec release 0), (dvec release 12), (dmem release). hold. Qed.
Print Assumptions c35_eq_refuted.

(** Not transitive: an empty vector, even of another type, equals every vector. *)
Theorem c35_transitive_refuted :
  exists prog (b0 b1 b2 : vecdyn AllVTable),
    let st := snd (drun release dyn_env prog d_init) in
    Forall (dstep_typed dyn_env) prog /\ dyn_in_range release dyn_env prog (d_init (V := AllVTable)) /\
    dget st 0 = Some (OVec b0) /\ dget st 1 = Some (OVec b1) /\ dget st 2 = Some (OVec b2) /\
    vd_eq release dyn_env b0 b1 = Ret true /\ vd_eq release dyn_env b1 b2 = Ret true /\
    vd_eq release dyn_env b0 b2 = Ret false.
Proof.
  exists [DFromVec ty_string 1 [1]%Z; DFromVec ty_box 1 []; DFromVec ty_string 1 [2]%Z].
  do 3 eexists. cbv zeta.
  split; [typed_dprog|]. split; [vm_compute; intuition (try discriminate; auto)|].
  do 5 (split; [vm_compute; reflexivity|]). vm_compute. reflexivity.
Qed.
Print Assumptions c35_transitive_refuted.

(** ** C36 Hash agrees with equality *)

Theorem c36_hash :
  forall (V : Type) (T : FullTable V) (P : profile) (G : tenv), types_ok G ->
  forall (b : vecdyn V) w t xs,
  live_vec P G b w -> contents G b t xs ->
  vd_hash P G b = Ret (flat_map (t_hash (G t)) xs).
Proof. exact c36_hash_fact. Qed.
Print Assumptions c36_hash.
Theorem c36_hash_eq_partial :
  forall (V : Type) (T : FullTable V) (P : profile) (G : tenv), types_ok G ->
  forall (b b' : vecdyn V) w w' t xs t' ys,
  live_vec P G b w -> contents G b t xs -> live_vec P G b' w' -> contents G b' t' ys ->
  (forall x y, t_eq (G t) x y = true -> t_hash (G t) x = t_hash (G t) y) ->
  lenN xs = lenN ys -> vd_eq P G b b' = Ret true -> vd_hash P G b = vd_hash P G b'.
Proof. exact c36_hash_eq_partial_fact. Qed.
Print Assumptions c36_hash_eq_partial.
Theorem c36_value_hash :
  forall (V : Type) (T : FullTable V) (P : profile) (G : tenv), types_ok G ->
  forall (v v' : value V) w w' t x t' x',
  live_val P G v w -> value_is G v t x -> live_val P G v' w' -> value_is G v' t' x' ->
  (forall x y, t_eq (G t) x y = true -> t_hash (G t) x = t_hash (G t) y) ->
  vl_hash G v = Ret (t_hash (G t) x) /\
  (vl_eq G v v' = Ret true -> vl_hash G v = vl_hash G v').
Proof. exact c36_value_hash_fact. Qed.
Print Assumptions c36_value_hash.
Example c36_hash_eq_ex :
  types_ok dyn_env /\ live_vec release dyn_env (dvec release 0) (dmem release) /\
  contents dyn_env (dvec release 0) ty_string [1; 2; 3]%Z /\
  live_vec release dyn_env (dvec release 1) (dmem release) /\
  contents dyn_env (dvec release 1) ty_string [1; 2; 3]%Z /\
  vd_eq release dyn_env (dvec release 0) (dvec release 1) = Ret true /\
  live_val release dyn_env (dval release 5) (dmem release) /\
  value_is dyn_env (dval release 5) ty_string 7%Z.
Proof. hold. Qed.
Example c36_hash_law_ex : forall x y,
  t_eq (dyn_env ty_string) x y = true -> t_hash (dyn_env ty_string) x = t_hash (dyn_env ty_string) y.
Proof. intros x y E. cbn in *. apply Z.eqb_eq in E. congruence. Qed.

Theorem c36_hash_eq_refuted :
  exists (b b' : vecdyn AllVTable) w,
    live_vec release dyn_env b w /\ live_vec release dyn_env b' w /\
    vd_eq release dyn_env b b' = Ret true /\ vd_hash release dyn_env b <> vd_hash release dyn_env b'.
Proof. exists (dvec release 0), (dvec release 12), (dmem release). hold. Qed.
Print Assumptions c36_hash_eq_refuted.

(** ** C37 Debug output *)

Theorem c37_vec_fmt :
  forall (V : Type) (T : FullTable V) (P : profile) (G : tenv), types_ok G ->
  forall (b : vecdyn V) w t xs,
  live_vec P G b w -> contents G b t xs -> vd_fmt P G b = Ret (list_fmt G t xs).
Proof. exact c37_vec_fmt_fact. Qed.
Print Assumptions c37_vec_fmt.
Theorem c37_slice_fmt :
  forall (V : Type) (T : FullTable V) (G : tenv), types_ok G ->
  forall t xs, slice_ok G t xs ->
  ds_fmt G (sl_from_slice G t xs (build_vtable (V := V) t)) = Ret (list_fmt G t xs).
Proof. exact c37_slice_fmt_fact. Qed.
Print Assumptions c37_slice_fmt.
Theorem c37_value_fmt :
  forall (V : Type) (T : FullTable V) (P : profile) (G : tenv), types_ok G ->
  forall (v : value V) w t x, live_val P G v w -> value_is G v t x -> vl_fmt G v = Ret (t_fmt (G t) x).
Proof. exact c37_value_fmt_fact. Qed.
Print Assumptions c37_value_fmt.
Theorem c37_ref_fmt :
  forall (V : Type) (T : FullTable V) (P : profile) (G : tenv), types_ok G ->
  forall (r : vref V) w t x, live_ref P G r w -> ref_is G r t x -> t <> unit_id ->
  vr_fmt G r = Ret (t_fmt (G t) x) /\ vr_hash G r = Ret (t_hash (G t) x).
Proof. exact c37_ref_fmt_fact. Qed.
Print Assumptions c37_ref_fmt.
Example c37_fmt_ex :
  live_vec release dyn_env (dvec release 0) (dmem release) /\
  contents dyn_env (dvec release 0) ty_string [1; 2; 3]%Z /\
  list_fmt dyn_env ty_string [1; 2; 3]%Z = "[odd, even, odd]"%string /\
  slice_ok dyn_env ty_string [1; 2; 3]%Z /\
  live_val release dyn_env (dval release 5) (dmem release) /\
  value_is dyn_env (dval release 5) ty_string 7%Z /\
  live_ref release dyn_env (dref release (FromVec 1 2)) (dmem release) /\
  ref_is dyn_env (dref release (FromVec 1 2)) ty_string 3%Z /\ ty_string <> unit_id.
Proof. hold. Qed.

(** ** C38 resize, clear and fill *)

Theorem c38_clear :
  forall (V : Type) (T : FullTable V) (P : profile) (G : tenv), types_ok G ->
  forall (b : vecdyn V) w t xs,
  live_vec P G b w -> contents G b t xs ->
  exists b' w', vd_clear P G b w = (Ret tt, b', w') /\ contents G b' t [] /\
                vd_vtable b' = vd_vtable b /\ vc_capacity b' = vc_capacity b /\
                events w (drops G t xs) w'.
Proof. exact c38_clear_fact. Qed.
Print Assumptions c38_clear.
Theorem c38_resize_grow_partial :
  forall (V : Type) (T : FullTable V) (P : profile) (G : tenv), types_ok G ->
  forall (b : vecdyn V) w t xs n x cs tr,
  live_vec P G b w -> contents G b t xs -> lenN xs <= n ->
  room G t (vc_capacity b) n -> ~ odd_growth G t (vc_capacity b) n ->
  clone_seq G t (repeat x (N.to_nat (n - lenN xs))) (w_trace w) = (cs, true, tr) ->
  exists b' w', vd_resize P G t n x b w = (Ret true, b', w') /\ contents G b' t (xs ++ cs) /\
                vd_vtable b' = vd_vtable b /\ w_trace w' = tr ++ drops G t [x].
Proof. exact c38_resize_grow_partial_fact. Qed.
Print Assumptions c38_resize_grow_partial.
Theorem c38_resize_clone_panics :
  forall (V : Type) (T : FullTable V) (P : profile) (G : tenv), types_ok G ->
  forall (b : vecdyn V) w t xs n x cs tr,
  live_vec P G b w -> contents G b t xs -> lenN xs <= n ->
  room G t (vc_capacity b) n -> ~ odd_growth G t (vc_capacity b) n ->
  clone_seq G t (repeat x (N.to_nat (n - lenN xs))) (w_trace w) = (cs, false, tr) ->
  exists b' w', vd_resize P G t n x b w = (Panic PUser, b', w') /\ contents G b' t (xs ++ cs) /\
                vd_vtable b' = vd_vtable b /\ w_trace w' = tr ++ drops G t [x].
Proof. exact c38_resize_clone_panics_fact. Qed.
Print Assumptions c38_resize_clone_panics.
Theorem c38_resize_shrink :
  forall (V : Type) (T : FullTable V) (P : profile) (G : tenv), types_ok G ->
  forall (b : vecdyn V) w t xs n x,
  live_vec P G b w -> contents G b t xs -> n < lenN xs ->
  exists b' w', vd_resize P G t n x b w = (Ret true, b', w') /\ contents G b' t (firstnN n xs) /\
                vd_vtable b' = vd_vtable b /\
                events w (drops G t (skipnN n xs) ++ drops G t [x]) w'.
Proof. exact c38_resize_shrink_fact. Qed.
Print Assumptions c38_resize_shrink.
Theorem c38_resize_other_type :
  forall (V : Type) (T : FullTable V) (P : profile) (G : tenv), types_ok G ->
  forall (b : vecdyn V) w t xs t' n x,
  live_vec P G b w -> contents G b t xs -> t' <> t ->
  exists w', vd_resize P G t' n x b w = (Ret false, b, w') /\ events w (drops G t' [x]) w' /\
             freed w [] w'.
Proof. exact c38_resize_other_type_fact. Qed.
Print Assumptions c38_resize_other_type.
Theorem c38_fill :
  forall (V : Type) (T : FullTable V) (P : profile) (G : tenv), types_ok G ->
  forall (b : vecdyn V) w t xs x ys tr,
  live_vec P G b w -> contents G b t xs ->
  replace_seq G t (repeat x (List.length xs)) xs (w_trace w) = (ys, true, tr) ->
  exists b' w', vd_fill G t x b w = (Ret true, b', w') /\ contents G b' t ys /\
                vd_vtable b' = vd_vtable b /\ w_trace w' = tr ++ drops G t [x].
Proof. exact c38_fill_fact. Qed.
Print Assumptions c38_fill.
Theorem c38_fill_clone_panics :
  forall (V : Type) (T : FullTable V) (P : profile) (G : tenv), types_ok G ->
  forall (b : vecdyn V) w t xs x ys tr,
  live_vec P G b w -> contents G b t xs ->
  replace_seq G t (repeat x (List.length xs)) xs (w_trace w) = (ys, false, tr) ->
  exists b' w', vd_fill G t x b w = (Panic PUser, b', w') /\ contents G b' t ys /\
                vd_vtable b' = vd_vtable b /\ w_trace w' = tr ++ drops G t [x].
Proof. exact c38_fill_clone_panics_fact. Qed.
Print Assumptions c38_fill_clone_panics.
Example c38_clear_ex :
  types_ok dyn_env /\ live_vec release dyn_env (dvec release 0) (dmem release) /\
  contents dyn_env (dvec release 0) ty_string [1; 2; 3]%Z /\ 1 < lenN [1; 2; 3]%Z /\ ty_u8 <> ty_string.
Proof. hold. Qed.
Example c38_resize_grow_ex :
  types_ok dyn_env /\ live_vec release dyn_env (dvec release 0) (dmem release) /\
  contents dyn_env (dvec release 0) ty_string [1; 2; 3]%Z /\ lenN [1; 2; 3]%Z <= 5 /\
  room dyn_env ty_string (vc_capacity (dvec release 0)) 5 /\
  ~ odd_growth dyn_env ty_string (vc_capacity (dvec release 0)) 5 /\
  exists tr, clone_seq dyn_env ty_string (repeat 9%Z (N.to_nat (5 - lenN [1; 2; 3]%Z)))
               (w_trace (dmem release)) = ([9; 9]%Z, true, tr).
Proof. hold. Qed.
Example c38_resize_clone_panics_ex :
  types_ok dyn_env /\ live_vec release dyn_env (dvec release 2) (dmem release) /\
  contents dyn_env (dvec release 2) ty_moody [1; 13]%Z /\ lenN [1; 13]%Z <= 5 /\
  room dyn_env ty_moody (vc_capacity (dvec release 2)) 5 /\
  ~ odd_growth dyn_env ty_moody (vc_capacity (dvec release 2)) 5 /\
  exists tr, clone_seq dyn_env ty_moody (repeat 13%Z (N.to_nat (5 - lenN [1; 13]%Z)))
               (w_trace (dmem release)) = ([], false, tr).
Proof. hold. Qed.
Theorem c38_resize_no_room :
  forall (V : Type) (T : FullTable V) (P : profile) (G : tenv), types_ok G ->
  forall (b : vecdyn V) w t xs n x,
  live_vec P G b w -> contents G b t xs -> fits P n (t_size (G t)) ->
  ~ room G t (vc_capacity b) n \/ odd_growth G t (vc_capacity b) n ->
  exists p b' w', vd_resize P G t n x b w = (Panic p, b', w') /\ lost_vec G b' /\
                  w_trace w' = w_trace w ++ drops G t [x].
Proof. exact c38_resize_no_room_fact. Qed.
Print Assumptions c38_resize_no_room.
Example c38_resize_no_room_ex :
  types_ok dyn_env /\ live_vec release dyn_env (dvec release 0) (dmem release) /\
  contents dyn_env (dvec release 0) ty_string [1; 2; 3]%Z /\
  fits release 500000000000000000 (t_size (dyn_env ty_string)) /\
  ~ room dyn_env ty_string (vc_capacity (dvec release 0)) 500000000000000000.
Proof.
  csplit; try solve [hold].
  intros [H|H]; revert H; vm_compute; intros H; now apply H.
Qed.
Example c38_fill_ex :
  types_ok dyn_env /\ live_vec release dyn_env (dvec release 0) (dmem release) /\
  contents dyn_env (dvec release 0) ty_string [1; 2; 3]%Z /\
  exists tr, replace_seq dyn_env ty_string (repeat 9%Z (List.length [1; 2; 3]%Z)) [1; 2; 3]%Z
               (w_trace (dmem release)) = ([9; 9; 9]%Z, true, tr).
Proof. hold. Qed.
Example c38_fill_clone_panics_ex :
  types_ok dyn_env /\ live_vec release dyn_env (dvec release 2) (dmem release) /\
  contents dyn_env (dvec release 2) ty_moody [1; 13]%Z /\
  exists tr, replace_seq dyn_env ty_moody (repeat 13%Z (List.length [1; 13]%Z)) [1; 13]%Z
               (w_trace (dmem release)) = ([1; 13]%Z, false, tr).
Proof. hold. Qed.

(** The odd growth of C08 also hits resize: the call panics and the vector is lost. *)
Theorem c38_resize_grow_refuted :
  exists prog, Forall (dstep_typed dyn_env) prog /\
    forall P, P = dev \/ P = release -> exists p,
      fst (drun P dyn_env prog (d_init (V := AllVTable))) =
      [Ret (DObs AUnit); Panic p; Ret (DObs (ANum 0))].
Proof.
  exists [DFromVec ty_u8x3 1 [7]%Z; DCall 0 (VResize ty_u8x3 2 8%Z); DCall 0 VLen].
  split; [typed_dprog|]. intros P [-> | ->]; eexists; vm_compute; reflexivity.
Qed.
Print Assumptions c38_resize_grow_refuted.

(** ** C30 Panicking destructors *)

(** Types as in [ex_env], with the tables of this file. *)
Theorem c30_panicking_destructor_refuted :
  exists prog, Forall (dstep_typed ex_env) prog /\
    forall P, P = dev \/ P = release ->
      fst (drun P ex_env prog (d_init (V := AllVTable))) =
        [Ret (DObs AUnit); Panic PUser; Panic PUser] /\
      count_occ Z.eq_dec
        (flat_map (fun e => match e with EvDrop _ v => [v] | _ => [] end)
                  (w_trace (d_world (snd (drun P ex_env prog (d_init (V := AllVTable)))))))
        1%Z = 2%nat.
Proof.
  exists [DFromVec ty_moody 2 [1; 66]%Z; DCall 0 VClear; DDrop 0].
  split; [typed_dprog|]. intros P [-> | ->]; vm_compute; split; reflexivity.
Qed.
Print Assumptions c30_panicking_destructor_refuted.

(** What does happen, for every vector of a program that was not aborted, destructors having
    panicked in it or not: the call runs exactly the destructors [ds] of [drop_seq], each once, and when one of
    them panics the vector is left as it was (so that its elements will be dropped again), or leaked
    if it was being dropped. *)
Theorem c30_clear_partial :
  forall (V : Type) (T : FullTable V) (P : profile) (G : tenv), wf_tenv G -> clones_ok G ->
  forall (b : vecdyn V) w t xs ds ok,
  running_vec P G b w -> contents G b t xs -> drop_seq G t (w_trace w) xs = (ds, ok) ->
  exists b' w', vd_clear P G b w = (if ok then Ret tt else Panic PUser, b', w') /\
                (if ok then contents G b' t [] else b' = b) /\
                events w (drops G t ds) w' /\ freed w [] w'.
Proof. exact c30_clear_partial_fact. Qed.
Print Assumptions c30_clear_partial.
Theorem c30_resize_partial :
  forall (V : Type) (T : FullTable V) (P : profile) (G : tenv), wf_tenv G -> clones_ok G ->
  forall (b : vecdyn V) w t xs n x ds ok dx okx,
  running_vec P G b w -> contents G b t xs -> n < lenN xs ->
  drop_seq G t (w_trace w) (skipnN n xs) = (ds, ok) ->
  drop_seq G t (w_trace w ++ drops G t ds) [x] = (dx, okx) ->
  exists b' w', vd_resize P G t n x b w =
                  (match ok, okx with
                   | true, true => Ret true
                   | true, false | false, true => Panic PUser
                   | false, false => Abort
                   end, b', w') /\
                (if ok then contents G b' t (firstnN n xs) else b' = b) /\
                events w (drops G t ds ++ drops G t [x]) w' /\ freed w [] w'.
Proof. exact c30_resize_partial_fact. Qed.
Print Assumptions c30_resize_partial.
Theorem c30_drop_partial :
  forall (V : Type) (T : FullTable V) (P : profile) (G : tenv), wf_tenv G -> clones_ok G ->
  forall (b : vecdyn V) w t xs ds ok,
  running_vec P G b w -> contents G b t xs -> drop_seq G t (w_trace w) xs = (ds, ok) ->
  exists w', vd_drop P G b w = (if ok then Ret tt else Panic PUser, w') /\
             events w (drops G t ds) w' /\ freed w (if ok then buf_block b else []) w'.
Proof. exact c30_drop_partial_fact. Qed.
Print Assumptions c30_drop_partial.
Theorem c30_dropped_again :
  forall (V : Type) (T : FullTable V) (P : profile) (G : tenv), wf_tenv G -> clones_ok G ->
  forall (b : vecdyn V) w t xs ds ds' ok',
  running_vec P G b w -> contents G b t xs -> drop_seq G t (w_trace w) xs = (ds, false) ->
  drop_seq G t (w_trace w ++ drops G t ds) xs = (ds', ok') ->
  exists w1 w2, vd_clear P G b w = (Panic PUser, b, w1) /\
                vd_drop P G b w1 = (if ok' then Ret tt else Panic PUser, w2) /\
                events w (drops G t ds ++ drops G t ds') w2 /\
                exists r r', xs = ds ++ r /\ xs = ds' ++ r'.
Proof. exact c30_dropped_again_fact. Qed.
Print Assumptions c30_dropped_again.
Example c30_ex :
  wf_tenv edgy_env /\ clones_ok edgy_env /\
  In (Panic PUser) (fst (drun release edgy_env p_panic (d_init (V := AllVTable)))) /\
  running_vec release edgy_env (pvec release 0) (pmem release) /\
  contents edgy_env (pvec release 0) ty_string [1; 66; 2; 66]%Z /\
  drop_seq edgy_env ty_string (w_trace (pmem release)) [1; 66; 2; 66]%Z = ([1; 66]%Z, false) /\
  2 < lenN [1; 66; 2; 66]%Z /\
  drop_seq edgy_env ty_string (w_trace (pmem release)) (skipnN 2 [1; 66; 2; 66]%Z) = ([2; 66]%Z, false) /\
  drop_seq edgy_env ty_string (w_trace (pmem release) ++ drops edgy_env ty_string [2; 66]%Z) [66]%Z = ([66]%Z, false) /\
  drop_seq edgy_env ty_string (w_trace (pmem release) ++ drops edgy_env ty_string [1; 66]%Z) [1; 66; 2; 66]%Z
    = ([1; 66]%Z, false) /\
  running_vec release edgy_env (pvec release 1) (pmem release) /\
  contents edgy_env (pvec release 1) ty_string [5; 6]%Z /\
  drop_seq edgy_env ty_string (w_trace (pmem release)) [5; 6]%Z = ([5; 6]%Z, true).
Proof.
  csplit;
  lazymatch goal with
  | |- wf_tenv _ => apply edgy_env_ok
  | |- clones_ok _ => apply edgy_env_ok
  | |- running_vec _ _ _ _ => apply pvec_live; [auto|lia]
  | |- contents _ _ _ _ => split; [discriminate|vm_compute; reflexivity]
  | |- In _ _ => vm_compute; auto 10
  | |- _ < _ => vm_compute; reflexivity
  | |- _ = _ => vm_compute; reflexivity
  end.
Qed.
(** Converted into a [Vec] instead, all elements are dropped, each once.  [panicking],
    [drop_panics], [running_val] and [running_vec_val] are in LoudSpec.v. *)
Theorem c30_into_vec :
  forall (V : Type) (T : FullTable V) (P : profile) (G : tenv), wf_tenv G -> clones_ok G ->
  forall (b : vecdyn V) w t xs,
  running_vec P G b w -> contents G b t xs ->
  exists vec, vd_into_vec P G t b w = (Ret (Some vec), w) /\ vec_elems G t vec = Ret xs /\
    exists w',
      vec_drop G t vec w =
        (match panicking G t (w_trace w) xs with [] => Ret tt | [_] => Panic PUser | _ => Abort end, w') /\
      (lenN (panicking G t (w_trace w) xs) <= 1 ->
       events w (drops G t xs) w' /\ freed w (buf_block b) w').
Proof. exact c30_into_vec_fact. Qed.
Print Assumptions c30_into_vec.
Example c30_into_vec_ex :
  wf_tenv edgy_env /\ clones_ok edgy_env /\
  (exists (b : vecdyn AllVTable) w, running_vec release edgy_env b w /\
     contents edgy_env b ty_string [1; 66; 2]%Z /\ w_trace w = []) /\
  panicking edgy_env ty_string [] [1; 66; 2]%Z = [66]%Z /\
  panicking edgy_env ty_string [] [1; 66; 2; 66]%Z = [66; 66]%Z.
Proof.
  split; [apply edgy_env_ok|split; [apply edgy_env_ok|split; [apply one_panic_runs|]]].
  split; reflexivity.
Qed.
(** Owned values, and elements replaced by them. *)
Theorem c30_value_drop :
  forall (V : Type) (T : FullTable V) (P : profile) (G : tenv), wf_tenv G -> clones_ok G ->
  forall (v : value V) w t x,
  running_val P G v w -> value_is G v t x ->
  exists w', vl_drop G v w = (if drop_panics G t (w_trace w) x then Panic PUser else Ret tt, w') /\
    events w (drops G t [x]) w' /\
    freed w (if drop_panics G t (w_trace w) x then [] else val_blocks v) w'.
Proof. exact c30_value_drop_fact. Qed.
Print Assumptions c30_value_drop.
Theorem c30_assign_element :
  forall (V : Type) (T : FullTable V) (P : profile) (G : tenv), wf_tenv G -> clones_ok G ->
  forall (b : vecdyn V) (v : value V) w t xs x i old,
  running_vec_val P G b v w -> contents G b t xs -> value_is G v t x -> nthN xs i = Some old ->
  exists b' w',
    vd_assign P G i v b w = (if drop_panics G t (w_trace w) old then Panic PUser else Ret tt, b', w') /\
    contents G b' t (list_set xs (N.to_nat i) x) /\ events w (drops G t [old]) w' /\
    freed w (if drop_panics G t (w_trace w) old then [] else val_blocks v) w'.
Proof. exact c30_assign_element_fact. Qed.
Print Assumptions c30_assign_element.
Example c30_values_ex :
  wf_tenv edgy_env /\ clones_ok edgy_env /\
  (exists (b : vecdyn AllVTable) (v v' : value AllVTable) w,
    running_vec_val release edgy_env b v w /\ running_val release edgy_env v' w /\
    contents edgy_env b ty_string [1; 66; 2]%Z /\ value_is edgy_env v ty_string 7%Z /\
    value_is edgy_env v' ty_string 66%Z /\
    drop_panics edgy_env ty_string (w_trace w) 66%Z = true) /\
  nthN [1; 66; 2]%Z 1 = Some 66%Z.
Proof.
  split; [apply edgy_env_ok|split; [apply edgy_env_ok|split; [apply loud_runs|reflexivity]]].
Qed.
(** Elements replaced by clones; [loud_replace] is in LoudSpec.v. *)
Theorem c30_clone_from_element :
  forall (V : Type) (T : FullTable V) (P : profile) (G : tenv), wf_tenv G -> clones_ok G ->
  forall (b : vecdyn V) w t xs i old y c,
  running_vec P G b w -> contents G b t xs -> nthN xs i = Some old ->
  t_clone (G t) (w_trace w) y = Some c ->
  exists b' w',
    vd_clone_from_other P G i (vr_new G t y) b w =
      (if drop_panics G t (w_trace w ++ [EvClone t y c]) old then Panic PUser else Ret (inl tt), b', w') /\
    contents G b' t (list_set xs (N.to_nat i) c) /\
    events w (EvClone t y c :: drops G t [old]) w' /\ w_live w' = w_live w.
Proof. exact c30_clone_from_element_fact. Qed.
Print Assumptions c30_clone_from_element.
Theorem c30_fill :
  forall (V : Type) (T : FullTable V) (P : profile) (G : tenv), wf_tenv G -> clones_ok G ->
  forall (b : vecdyn V) w t xs x ys ok tr,
  running_vec P G b w -> contents G b t xs ->
  loud_replace G t (repeat x (List.length xs)) xs (w_trace w) = (ys, ok, tr) ->
  exists b' w',
    vd_fill G t x b w =
      (match ok, drop_panics G t tr x with
       | true, false => Ret true
       | true, true | false, false => Panic PUser
       | false, true => Abort
       end, b', w') /\
    contents G b' t ys /\ w_trace w' = tr ++ drops G t [x] /\ w_live w' = w_live w.
Proof. exact c30_fill_fact. Qed.
Print Assumptions c30_fill.
Theorem c30_clone_from_slice :
  forall (V : Type) (P : profile) (G : tenv), wf_tenv G ->
  forall t xs (vt : V) src ys ok tr w,
  slice_ok G t xs -> lenN src = lenN xs -> loud_replace G t src xs (w_trace w) = (ys, ok, tr) ->
  exists w', dsm_clone_from_slice P G t src (sl_from_slice G t xs vt) w =
             (if ok then Ret true else Panic PUser, sl_from_slice G t ys vt, w') /\
    w_trace w' = tr /\ w_live w' = w_live w.
Proof. exact c30_clone_from_slice_fact. Qed.
Print Assumptions c30_clone_from_slice.
Example c30_clones_ex :
  wf_tenv edgy_env /\ clones_ok edgy_env /\
  (exists (b : vecdyn AllVTable) w, running_vec release edgy_env b w /\
     contents edgy_env b ty_string [1; 66; 2]%Z /\ w_trace w = []) /\
  nthN [1; 66; 2]%Z 1 = Some 66%Z /\ t_clone (edgy_env ty_string) [] 5%Z = Some 5%Z /\
  slice_ok edgy_env ty_string [1; 66; 2]%Z /\ lenN (repeat 5%Z 3) = lenN [1; 66; 2]%Z /\
  exists tr, loud_replace edgy_env ty_string (repeat 5%Z 3) [1; 66; 2]%Z [] = ([5; 5; 2]%Z, false, tr).
Proof.
  split; [apply edgy_env_ok|split; [apply edgy_env_ok|split; [apply one_panic_runs|]]].
  split; [reflexivity|split; [reflexivity|split; [|split; [reflexivity|eexists; vm_compute; reflexivity]]]].
  split; vm_compute; try discriminate; auto.
Qed.

(** ** C39 A VecDyn can be dropped after a caught panic *)

Theorem c39_drop_partial :
  forall (V : Type) (T : FullTable V) (P : profile) (G : tenv), types_ok G ->
  forall (b : vecdyn V) w,
  live_vec P G b w ->
  (exists t xs w', contents G b t xs /\ vd_drop P G b w = (Ret tt, w')) \/
  (lost_vec G b /\ exists p, vd_drop P G b w = (Panic p, w)).
Proof. exact c39_drop_partial_fact. Qed.
Print Assumptions c39_drop_partial.
Example c39_drop_ex :
  types_ok dyn_env /\ live_vec release dyn_env (dvec release 0) (dmem release).
Proof. hold. Qed.

Theorem c39_drop_refuted :
  exists prog, Forall (dstep_typed dyn_env) prog /\
    forall P, P = dev \/ P = release -> exists p,
      fst (drun P dyn_env prog (d_init (V := AllVTable))) =
      [Ret (DObs AUnit); Ret (DObs AUnit); Panic PUser; Panic p].
Proof.
  exists [DFromVec ty_moody 4 [1]%Z; OBox ty_moody 13%Z; DPushCloned 0 (FromVal 1); DDrop 0].
  split; [typed_dprog|]. intros P [-> | ->]; eexists; vm_compute; reflexivity.
Qed.
Print Assumptions c39_drop_refuted.

(** ** C40 Value ownership *)

Theorem c40_new :
  forall (V : Type) (T : FullTable V) (G : tenv), types_ok G ->
  forall t x w, is_value G t x -> wf_world w ->
  exists (v : value V) w', bv_new G t x w = (v, w') /\ value_is G v t x /\
    (exists b, vl_store v = Boxed b) /\ events w [] w' /\ allocated w (val_blocks v) w'.
Proof. exact c40_new_fact. Qed.
Print Assumptions c40_new.
Theorem c40_drop :
  forall (V : Type) (T : FullTable V) (P : profile) (G : tenv), types_ok G ->
  forall (v : value V) w t x,
  live_val P G v w -> value_is G v t x ->
  exists w', vl_drop G v w = (Ret tt, w') /\ events w (drops G t [x]) w' /\ freed w (val_blocks v) w'.
Proof. exact c40_drop_fact. Qed.
Print Assumptions c40_drop.
Theorem c40_downcast_box :
  forall (V : Type) (T : FullTable V) (P : profile) (G : tenv), types_ok G ->
  forall (v : value V) b w t x,
  live_val P G v w -> value_is G v t x -> vl_store v = Boxed b ->
  exists bx w', bv_downcast G t v w = (Ret (Some bx), w') /\ tb_val bx = x /\ events w [] w' /\
    exists w'', tbox_drop G t bx w' = (Ret tt, w'') /\ events w (drops G t [x]) w'' /\
                freed w (val_blocks v) w''.
Proof. exact c40_downcast_box_fact. Qed.
Print Assumptions c40_downcast_box.
Theorem c40_downcast_small :
  forall (V : Type) (T : FullTable V) (P : profile) (G : tenv), types_ok G ->
  forall (v : value V) w t x,
  live_val P G v w -> value_is G v t x -> vl_store v = Inline ->
  exists w', sv_downcast G t v w = (Ret (Some x), w') /\ events w [] w' /\ freed w (val_blocks v) w'.
Proof. exact c40_downcast_small_fact. Qed.
Print Assumptions c40_downcast_small.
Theorem c40_clone :
  forall (V : Type) (T : FullTable V) (P : profile) (G : tenv), types_ok G ->
  forall (v : value V) w t x,
  live_val P G v w -> value_is G v t x ->
  match t_clone (G t) (w_trace w) x with
  | Some c =>
      exists v' w', vl_clone G v w = (Ret v', w') /\ value_is G v' t c /\ same_kind v v' /\
                    events w [EvClone t x c] w' /\ allocated w (val_blocks v') w'
  | None => vl_clone G v w = (Panic PUser, w)
  end.
Proof. exact c40_clone_fact. Qed.
Print Assumptions c40_clone.
Theorem c40_clone_value :
  forall (V : Type) (T : FullTable V) (P : profile) (G : tenv), types_ok G ->
  forall (r : vref V) w t x,
  live_ref P G r w -> ref_is G r t x -> t <> unit_id ->
  match t_clone (G t) (w_trace w) x with
  | Some c =>
      exists v' w', vr_clone_value G r w = (Ret v', w') /\ value_is G v' t c /\
                    (exists b, vl_store v' = Boxed b) /\
                    events w [EvClone t x c] w' /\ allocated w (val_blocks v') w'
  | None => vr_clone_value G r w = (Panic PUser, w)
  end.
Proof. exact c40_clone_value_fact. Qed.
Print Assumptions c40_clone_value.
Theorem c40_clone_small_value :
  forall (V : Type) (T : FullTable V) (P : profile) (G : tenv), types_ok G ->
  forall (r : vref V) w t x,
  live_ref P G r w -> ref_is G r t x -> t_size (G t) = 8 ->
  match t_clone (G t) (w_trace w) x with
  | Some c =>
      exists v' w', vr_clone_small_value G r w = (Ret v', w') /\ value_is G v' t c /\
                    vl_store v' = Inline /\
                    events w [EvClone t x c] w' /\ allocated w (val_blocks v') w'
  | None => vr_clone_small_value G r w = (Panic PUser, w)
  end.
Proof. exact c40_clone_small_value_fact. Qed.
Print Assumptions c40_clone_small_value.
Theorem c40_clone_small_too_big :
  forall (V : Type) (T : FullTable V) (P : profile) (G : tenv), types_ok G ->
  forall (r : vref V) w t x c,
  live_ref P G r w -> ref_is G r t x -> t <> unit_id -> t_size (G t) <> 8 ->
  t_clone (G t) (w_trace w) x = Some c ->
  exists p w', vr_clone_small_value G r w = (Panic p, w') /\
    events w ([EvClone t x c] ++ drops G t [c]) w' /\ w_live w' = w_live w.
Proof. exact c40_clone_small_too_big_fact. Qed.
Print Assumptions c40_clone_small_too_big.
Theorem c40_box_freed :
  forall (V : Type) (T : FullTable V) (G : tenv), wf_tenv G ->
  forall t x w, wf_world w -> is_value G t x ->
  exists v w1 bx w2 w3,
    bv_new (V := V) G t x w = (v, w1) /\ bv_downcast G t v w1 = (Ret (Some bx), w2) /\ tb_val bx = x /\
    tbox_drop G t bx w2 =
      (if negb (t_copy (G t)) && t_drop_panics (G t) (w_trace w) x then Panic PUser else Ret tt, w3) /\
    events w (drops G t [x]) w3 /\ Permutation (w_live w) (w_live w3).
Proof. exact c40_box_freed_fact. Qed.
Print Assumptions c40_box_freed.
(** Dropping a [ty_moody] worth 66 panics. *)
Example c40_box_freed_ex :
  wf_tenv ex_env /\ wf_world w0 /\ is_value ex_env ty_moody 66%Z /\
  negb (t_copy (ex_env ty_moody)) && t_drop_panics (ex_env ty_moody) (w_trace w0) 66%Z = true.
Proof. split; [apply ex_env_wf|]. hold. Qed.
Example c40_ex :
  types_ok dyn_env /\ is_value dyn_env ty_string 7%Z /\ wf_world w0 /\
  live_val release dyn_env (dval release 5) (dmem release) /\
  value_is dyn_env (dval release 5) ty_string 7%Z /\ (exists b, vl_store (dval release 5) = Boxed b) /\
  live_val release dyn_env (dval release 9) (dmem release) /\
  value_is dyn_env (dval release 9) ty_box 4%Z /\ vl_store (dval release 9) = Inline.
Proof. hold. Qed.
Example c40_clone_ref_ex :
  types_ok dyn_env /\ live_ref release dyn_env (dref release (FromVec 1 2)) (dmem release) /\
  ref_is dyn_env (dref release (FromVec 1 2)) ty_string 3%Z /\ ty_string <> unit_id /\
  t_size (dyn_env ty_string) <> 8 /\
  t_clone (dyn_env ty_string) (w_trace (dmem release)) 3%Z = Some 3%Z /\
  live_ref release dyn_env (dref release (FromVal 9)) (dmem release) /\
  ref_is dyn_env (dref release (FromVal 9)) ty_box 4%Z /\ t_size (dyn_env ty_box) = 8.
Proof. hold. Qed.

(** ** C41 A failed downcast does not leak *)

(** A failed downcast always leaks a boxed value, and always skips the destructor of a small one. *)
Theorem c41_leaks :
  forall (V : Type) (T : FullTable V) (P : profile) (G : tenv), types_ok G ->
  forall (v : value V) i w t x t',
  live_val P G v w -> value_is G v t x -> vl_store v = Boxed (Some i) -> t_size (G t) <> 0 ->
  t' <> t ->
  exists w', bv_downcast G t' v w = (Ret None, w') /\ events w [] w' /\
             In (i, (t_size (G t), t_align (G t))) (w_live w').
Proof. exact c41_leaks_fact. Qed.
Print Assumptions c41_leaks.
Theorem c41_small_leaks :
  forall (V : Type) (T : FullTable V) (P : profile) (G : tenv), types_ok G ->
  forall (v : value V) w t x t',
  live_val P G v w -> value_is G v t x -> vl_store v = Inline -> t' <> t ->
  exists w', sv_downcast G t' v w = (Ret None, w') /\ events w [] w'.
Proof. exact c41_small_leaks_fact. Qed.
Print Assumptions c41_small_leaks.
Theorem c41_copy_partial :
  forall (V : Type) (T : FullTable V) (P : profile) (G : tenv), types_ok G ->
  forall (v : value V) w t x t',
  live_val P G v w -> value_is G v t x -> vl_store v = Inline -> t_copy (G t) = true -> t' <> t ->
  exists w', sv_downcast G t' v w = (Ret None, w') /\ events w (drops G t [x]) w' /\
             freed w (val_blocks v) w'.
Proof. exact c41_copy_partial_fact. Qed.
Print Assumptions c41_copy_partial.
Example c41_ex :
  types_ok dyn_env /\ live_val release dyn_env (dval release 5) (dmem release) /\
  value_is dyn_env (dval release 5) ty_string 7%Z /\
  (exists i, vl_store (dval release 5) = Boxed (Some i)) /\ t_size (dyn_env ty_string) <> 0 /\
  ty_u8 <> ty_string /\ live_val release dyn_env (dval release 10) (dmem release) /\
  value_is dyn_env (dval release 10) ty_usize 6%Z /\ vl_store (dval release 10) = Inline /\
  t_copy (dyn_env ty_usize) = true /\ ty_u8 <> ty_usize.
Proof. hold. Qed.

Theorem c41_leaks_refuted :
  exists (v : value AllVTable) w w' blk,
    live_val release dyn_env v w /\ value_is dyn_env v ty_string 7%Z /\ In blk (val_blocks v) /\
    bv_downcast dyn_env ty_u8 v w = (Ret None, w') /\ w_trace w' = w_trace w /\ In blk (w_live w').
Proof.
  exists (dval release 5), (dmem release). do 2 eexists.
  csplit; [apply dval_live; [auto|lia]|repeat split; vm_compute; reflexivity|vm_compute; left; reflexivity
          |vm_compute; reflexivity|vm_compute; reflexivity|vm_compute; tauto].
Qed.
Print Assumptions c41_leaks_refuted.

(** ** C42 SmallValue admission *)

Theorem c42_try_new_partial :
  forall (V : Type) (T : FullTable V) (G : tenv), types_ok G ->
  forall t x w, is_value G t x -> wf_world w ->
  (t_size (G t) = 8 ->
   exists (v : value V) w', sv_try_new G t x w = (Some v, w') /\ sv_new G t x w = (Ret v, w') /\
     value_is G v t x /\ vl_store v = Inline /\ events w [] w' /\ allocated w (val_blocks v) w') /\
  (t_size (G t) <> 8 ->
   sv_try_new (V := V) G t x w = (None, w) /\ exists p, sv_new (V := V) G t x w = (Panic p, w)).
Proof. exact c42_try_new_partial_fact. Qed.
Print Assumptions c42_try_new_partial.
Example c42_try_new_ex :
  types_ok dyn_env /\ is_value dyn_env ty_box 4%Z /\ is_value dyn_env ty_string 4%Z /\ wf_world w0 /\
  t_size (dyn_env ty_box) = 8 /\ t_size (dyn_env ty_string) <> 8.
Proof. hold. Qed.

(** On failure the value is neither dropped nor handed back. *)
Theorem c42_try_new_refuted :
  exists t x, drops dyn_env t [x] = [EvDrop t x] /\
    forall w, sv_try_new (V := AllVTable) dyn_env t x w = (None, w).
Proof. exists ty_string, 4%Z. split; [vm_compute; reflexivity|]. intros w. reflexivity. Qed.
Print Assumptions c42_try_new_refuted.

(** ** C43 ValueMut swap, assign, clone_from_other *)

Theorem c43_swap_values :
  forall (V : Type) (T : FullTable V) (P : profile) (G : tenv), types_ok G ->
  forall (v v' : value V) w t x t' x',
  live_vals P G v v' w -> value_is G v t x -> value_is G v' t' x' ->
  exists m m', vm_swap (vl_as_mut v) (vl_as_mut v') = (Ret tt, m, m') /\
    (t = t' -> value_is G (vl_with_bytes v (vm_bytes m)) t x' /\
               value_is G (vl_with_bytes v' (vm_bytes m')) t x) /\
    (t <> t' -> vl_with_bytes v (vm_bytes m) = v /\ vl_with_bytes v' (vm_bytes m') = v').
Proof. exact c43_swap_values_fact. Qed.
Print Assumptions c43_swap_values.
Theorem c43_assign_value :
  forall (V : Type) (T : FullTable V) (P : profile) (G : tenv), types_ok G ->
  forall (v v' : value V) w t x t' x',
  live_vals P G v v' w -> value_is G v t x -> value_is G v' t' x' ->
  exists m w', vm_assign G (vl_as_mut v) v' w = (Ret tt, m, w') /\ freed w (val_blocks v') w' /\
    (t = t' -> value_is G (vl_with_bytes v (vm_bytes m)) t x' /\ events w (drops G t [x]) w') /\
    (t <> t' -> vl_with_bytes v (vm_bytes m) = v /\ events w (drops G t' [x']) w').
Proof. exact c43_assign_value_fact. Qed.
Print Assumptions c43_assign_value.
Theorem c43_clone_from_value :
  forall (V : Type) (T : FullTable V) (P : profile) (G : tenv), types_ok G ->
  forall (v : value V) (r : vref V) w t x y c,
  live_val_ref P G v r w -> value_is G v t x -> ref_is G r t y -> t <> unit_id ->
  t_clone (G t) (w_trace w) y = Some c ->
  exists m w', vm_clone_from_other G (vl_as_mut v) r w = (Ret (inl tt), m, w') /\
    value_is G (vl_with_bytes v (vm_bytes m)) t c /\
    events w (EvClone t y c :: drops G t [x]) w' /\ w_live w' = w_live w.
Proof. exact c43_clone_from_value_fact. Qed.
Print Assumptions c43_clone_from_value.
Theorem c43_clone_from_other_type :
  forall (V : Type) (T : FullTable V) (P : profile) (G : tenv), types_ok G ->
  forall (v : value V) (r : vref V) w t x,
  live_val_ref P G v r w -> value_is G v t x -> vr_type_id r <> t ->
  vm_clone_from_other G (vl_as_mut v) r w =
  (Ret (inr (MismatchedTypes t (vr_type_id r))), vl_as_mut v, w).
Proof. exact c43_clone_from_other_type_fact. Qed.
Print Assumptions c43_clone_from_other_type.
Theorem c43_swap_elements :
  forall (V : Type) (T : FullTable V) (P : profile) (G : tenv), types_ok G ->
  forall (b b' : vecdyn V) w t xs t' ys i j x y,
  live_vecs P G b b' w -> contents G b t xs -> contents G b' t' ys ->
  nthN xs i = Some x -> nthN ys j = Some y ->
  exists b1 b1', vd_swap P i b j b' = (Ret tt, b1, b1') /\
    (t = t' -> contents G b1 t (list_set xs (N.to_nat i) y) /\
               contents G b1' t (list_set ys (N.to_nat j) x)) /\
    (t <> t' -> b1 = b /\ b1' = b').
Proof. exact c43_swap_elements_fact. Qed.
Print Assumptions c43_swap_elements.
Theorem c43_assign_element :
  forall (V : Type) (T : FullTable V) (P : profile) (G : tenv), types_ok G ->
  forall (b : vecdyn V) (v : value V) w t xs t' x i old,
  live_vec_val P G b v w -> contents G b t xs -> value_is G v t' x -> nthN xs i = Some old ->
  exists b' w', vd_assign P G i v b w = (Ret tt, b', w') /\ freed w (val_blocks v) w' /\
    (t = t' -> contents G b' t (list_set xs (N.to_nat i) x) /\ events w (drops G t [old]) w') /\
    (t <> t' -> b' = b /\ events w (drops G t' [x]) w').
Proof. exact c43_assign_element_fact. Qed.
Print Assumptions c43_assign_element.
Theorem c43_clone_from_element :
  forall (V : Type) (T : FullTable V) (P : profile) (G : tenv), types_ok G ->
  forall (b : vecdyn V) (r : vref V) w t xs i old y c,
  live_vec_ref P G b r w -> contents G b t xs -> ref_is G r t y -> nthN xs i = Some old ->
  t_clone (G t) (w_trace w) y = Some c ->
  exists b' w', vd_clone_from_other P G i r b w = (Ret (inl tt), b', w') /\
    contents G b' t (list_set xs (N.to_nat i) c) /\
    events w (EvClone t y c :: drops G t [old]) w' /\ w_live w' = w_live w.
Proof. exact c43_clone_from_element_fact. Qed.
Print Assumptions c43_clone_from_element.
(** A clone panics: the target is as before. *)
Theorem c43_clone_from_value_panics :
  forall (V : Type) (T : FullTable V) (P : profile) (G : tenv), types_ok G ->
  forall (v : value V) (r : vref V) w t x y,
  live_val_ref P G v r w -> value_is G v t x -> ref_is G r t y -> t <> unit_id ->
  t_clone (G t) (w_trace w) y = None ->
  vm_clone_from_other G (vl_as_mut v) r w = (Panic PUser, vl_as_mut v, w).
Proof. exact c43_clone_from_value_panics_fact. Qed.
Print Assumptions c43_clone_from_value_panics.
Theorem c43_clone_from_element_panics :
  forall (V : Type) (T : FullTable V) (P : profile) (G : tenv), types_ok G ->
  forall (b : vecdyn V) (r : vref V) w t xs i old y,
  live_vec_ref P G b r w -> contents G b t xs -> ref_is G r t y -> nthN xs i = Some old ->
  t_clone (G t) (w_trace w) y = None ->
  exists b', vd_clone_from_other P G i r b w = (Panic PUser, b', w) /\ contents G b' t xs /\
             vd_vtable b' = vd_vtable b /\ vc_capacity b' = vc_capacity b.
Proof. exact c43_clone_from_element_panics_fact. Qed.
Print Assumptions c43_clone_from_element_panics.
Example c43_clone_from_panics_ex :
  types_ok dyn_env /\
  live_val_ref release dyn_env (dval release 11) (dref release (FromVec 2 1)) (dmem release) /\
  value_is dyn_env (dval release 11) ty_moody 13%Z /\
  ref_is dyn_env (dref release (FromVec 2 1)) ty_moody 13%Z /\ ty_moody <> unit_id /\
  t_clone (dyn_env ty_moody) (w_trace (dmem release)) 13%Z = None /\
  live_vec_ref release dyn_env (dvec release 2) (dref release (FromVal 11)) (dmem release) /\
  contents dyn_env (dvec release 2) ty_moody [1; 13]%Z /\
  ref_is dyn_env (dref release (FromVal 11)) ty_moody 13%Z /\ nthN [1; 13]%Z 0 = Some 1%Z.
Proof.
  split; [apply dyn_env_ok|split].
  - exists (dfinal release), 11%nat, (FromVec 2 1).
    csplit; [apply dfinal_reachable; auto|vm_compute; reflexivity|vm_compute; auto
            |vm_compute; intuition discriminate|reflexivity|vm_compute; reflexivity|reflexivity].
  - hold.
Qed.
(** Writing through the typed reference that [downcast] gives. *)
Theorem c43_downcast_value :
  forall (V : Type) (T : FullTable V) (P : profile) (G : tenv), types_ok G ->
  forall (v : value V) w t x t' y,
  live_val P G v w -> value_is G v t x -> is_value G t' y ->
  exists m w', vm_downcast_assign G t' y (vl_as_mut v) w = (Ret (t =? t'), m, w') /\ w_live w' = w_live w /\
    (t = t' -> value_is G (vl_with_bytes v (vm_bytes m)) t y /\ events w (drops G t [x]) w') /\
    (t <> t' -> vl_with_bytes v (vm_bytes m) = v /\ events w (drops G t' [y]) w').
Proof. exact c43_downcast_value_fact. Qed.
Print Assumptions c43_downcast_value.
Theorem c43_downcast_element :
  forall (V : Type) (T : FullTable V) (P : profile) (G : tenv), types_ok G ->
  forall (b : vecdyn V) w t xs t' y i old,
  live_vec P G b w -> contents G b t xs -> nthN xs i = Some old ->
  exists b' w', vd_with_mut P i (vm_downcast_assign G t' y) b w = (Ret (t =? t'), b', w') /\ w_live w' = w_live w /\
    (t = t' -> contents G b' t (list_set xs (N.to_nat i) y) /\ events w (drops G t [old]) w') /\
    (t <> t' -> b' = b /\ events w (drops G t' [y]) w').
Proof. exact c43_downcast_element_fact. Qed.
Print Assumptions c43_downcast_element.
Example c43_downcast_ex :
  types_ok dyn_env /\ live_val release dyn_env (dval release 5) (dmem release) /\
  value_is dyn_env (dval release 5) ty_string 7%Z /\ is_value dyn_env ty_string 9%Z /\
  is_value dyn_env ty_box 9%Z /\ ty_box <> ty_string /\
  live_vec release dyn_env (dvec release 0) (dmem release) /\
  contents dyn_env (dvec release 0) ty_string [1; 2; 3]%Z /\ nthN [1; 2; 3]%Z 2 = Some 3%Z.
Proof. hold. Qed.
Example c43_ex :
  types_ok dyn_env /\ live_vals release dyn_env (dval release 5) (dval release 6) (dmem release) /\
  value_is dyn_env (dval release 5) ty_string 7%Z /\ value_is dyn_env (dval release 6) ty_string 8%Z /\
  live_val_ref release dyn_env (dval release 5) (dref release (FromVal 6)) (dmem release) /\
  ref_is dyn_env (dref release (FromVal 6)) ty_string 8%Z /\ ty_string <> unit_id /\
  t_clone (dyn_env ty_string) (w_trace (dmem release)) 8%Z = Some 8%Z /\
  live_val_ref release dyn_env (dval release 5) (dref release (FromVal 11)) (dmem release) /\
  vr_type_id (dref release (FromVal 11)) <> ty_string.
Proof. hold. Qed.
Example c43_elements_ex :
  types_ok dyn_env /\ live_vecs release dyn_env (dvec release 0) (dvec release 1) (dmem release) /\
  contents dyn_env (dvec release 0) ty_string [1; 2; 3]%Z /\
  contents dyn_env (dvec release 1) ty_string [1; 2; 3]%Z /\
  nthN [1; 2; 3]%Z 0 = Some 1%Z /\ nthN [1; 2; 3]%Z 2 = Some 3%Z /\
  live_vec_val release dyn_env (dvec release 0) (dval release 5) (dmem release) /\
  live_vec_ref release dyn_env (dvec release 0) (dref release (FromVec 1 2)) (dmem release) /\
  ref_is dyn_env (dref release (FromVec 1 2)) ty_string 3%Z.
Proof. hold. Qed.

(** ** C45 Values of different types are never equal *)

Theorem c45_value_eq :
  forall (V : Type) (T : FullTable V) (P : profile) (G : tenv), types_ok G ->
  forall (v v' : value V) w w' t x t' x',
  live_val P G v w -> value_is G v t x -> live_val P G v' w' -> value_is G v' t' x' ->
  (t <> t' -> vl_eq G v v' = Ret false) /\ (t = t' -> vl_eq G v v' = Ret (t_eq (G t) x x')).
Proof. exact c45_value_eq_fact. Qed.
Print Assumptions c45_value_eq.
Theorem c45_ref_eq :
  forall (V : Type) (T : FullTable V) (P : profile) (G : tenv), types_ok G ->
  forall (r r' : vref V) w w' t x t' x',
  live_ref P G r w -> ref_is G r t x -> live_ref P G r' w' -> ref_is G r' t' x' ->
  (t <> t' -> vr_eq G r r' = Ret false) /\
  (t = t' -> t <> unit_id -> vr_eq G r r' = Ret (t_eq (G t) x x')).
Proof. exact c45_ref_eq_fact. Qed.
Print Assumptions c45_ref_eq.
Theorem c45_mut_eq :
  forall (V : Type) (T : FullTable V) (P : profile) (G : tenv), types_ok G ->
  forall (v v' : value V) w w' t x t' x',
  live_val P G v w -> value_is G v t x -> live_val P G v' w' -> value_is G v' t' x' ->
  vm_eq G (vl_as_mut v) (vl_as_mut v') = Ret (if t =? t' then t_eq (G t) x x' else false) /\
  vm_hash G (vl_as_mut v) = Ret (t_hash (G t) x) /\ vm_fmt G (vl_as_mut v) = Ret (t_fmt (G t) x).
Proof. exact c45_mut_eq_fact. Qed.
Print Assumptions c45_mut_eq.
Theorem c45_copy_ref_eq :
  forall (V : Type) (T : FullTable V) (G : tenv) t x t' x',
  is_value G t x -> is_value G t' x' ->
  cr_eq G (copy_ref_new G t x (build_vtable (V := V) t)) (copy_ref_new G t' x' (build_vtable t')) =
    Ret (if t =? t' then t_eq (G t) x x' else false) /\
  cm_eq G (copy_mut_new G t x (build_vtable (V := V) t)) (copy_mut_new G t' x' (build_vtable t')) =
    Ret (if t =? t' then t_eq (G t) x x' else false) /\
  cr_hash G (copy_ref_new G t x (build_vtable (V := V) t)) = Ret (t_hash (G t) x) /\
  cr_fmt G (copy_ref_new G t x (build_vtable (V := V) t)) = Ret (t_fmt (G t) x).
Proof. exact c45_copy_ref_eq_fact. Qed.
Print Assumptions c45_copy_ref_eq.
Example c45_ex :
  types_ok dyn_env /\ live_val release dyn_env (dval release 5) (dmem release) /\
  value_is dyn_env (dval release 5) ty_string 7%Z /\
  live_val release dyn_env (dval release 9) (dmem release) /\
  value_is dyn_env (dval release 9) ty_box 4%Z /\ ty_string <> ty_box /\
  live_ref release dyn_env (dref release (FromVec 1 2)) (dmem release) /\
  ref_is dyn_env (dref release (FromVec 1 2)) ty_string 3%Z /\ ty_string <> unit_id /\
  is_value dyn_env ty_u32 3%Z /\ is_value dyn_env ty_f32 3%Z.
Proof. hold. Qed.

(** ** C54 Raw parts of VecDyn and Value *)

Theorem c54_vecdyn_raw_parts :
  forall (V : Type) (b : vecdyn V),
  let '(d, vt) := vd_into_raw_parts b in vd_from_raw_parts d vt = b.
Proof. exact c54_vecdyn_raw_parts_fact. Qed.
Print Assumptions c54_vecdyn_raw_parts.
Theorem c54_value_raw_parts :
  forall (V : Type) (v : value V),
  let '(bytes, t, al, tab) := vl_into_raw_parts v in vl_from_raw_parts bytes t al tab = v.
Proof. exact c54_value_raw_parts_fact. Qed.
Print Assumptions c54_value_raw_parts.

(** ** C55 Untyped indexing of VecDyn *)

Theorem c55_vec_get_partial :
  forall (V : Type) (T : FullTable V) (P : profile) (G : tenv), types_ok G ->
  forall (b : vecdyn V) w t xs i,
  live_vec P G b w -> contents G b t xs -> fits P (i + 1) (t_size (G t)) ->
  match nthN xs i with
  | Some x => exists r, vd_get P i b = Ret r /\ ref_is G r t x /\ vt_as_ref (vr_vtable r) = vd_vtable b
  | None => exists p, vd_get P i b = Panic p
  end.
Proof. exact c55_vec_get_partial_fact. Qed.
Print Assumptions c55_vec_get_partial.
Theorem c55_vec_get_mut_partial :
  forall (V : Type) (T : FullTable V) (P : profile) (G : tenv), types_ok G ->
  forall (b : vecdyn V) w t xs i,
  live_vec P G b w -> contents G b t xs -> fits P (i + 1) (t_size (G t)) ->
  match nthN xs i with
  | Some x => exists off m, vd_get_mut P i b = Ret (off, m) /\ vm_type_id m = t /\
                vm_downcast G t m = Ret (Some x) /\ vt_as_ref (vm_vtable m) = vd_vtable b /\
                off = i * t_size (G t)
  | None => exists p, vd_get_mut P i b = Panic p
  end.
Proof. exact c55_vec_get_mut_partial_fact. Qed.
Print Assumptions c55_vec_get_mut_partial.
Example c55_vec_get_ex :
  types_ok dyn_env /\ live_vec release dyn_env (dvec release 0) (dmem release) /\
  contents dyn_env (dvec release 0) ty_string [1; 2; 3]%Z /\
  fits release (2 + 1) (t_size (dyn_env ty_string)) /\ nthN [1; 2; 3]%Z 2 = Some 3%Z /\
  fits release (3 + 1) (t_size (dyn_env ty_string)) /\ nthN [1; 2; 3]%Z 3 = None.
Proof. hold. Qed.

(** In a release build the byte position wraps around: a far out-of-range index gives element 0. *)
Theorem c55_vec_get_refuted :
  exists (b : vecdyn AllVTable) w i r,
    live_vec release dyn_env b w /\ contents dyn_env b ty_string [1; 2; 3]%Z /\ 3 <= i /\
    vd_get release i b = Ret r /\ ref_is dyn_env r ty_string 1%Z.
Proof. exists (dvec release 0), (dmem release), (2 ^ 61). eexists. hold. Qed.
Print Assumptions c55_vec_get_refuted.
(** A vector that a panic has left without contents: in a release build every index is accepted. *)
Theorem c55_lost_vec_get :
  forall (V : Type) (T : FullTable V) (P : profile) (G : tenv), types_ok G ->
  forall (b : vecdyn V) w i,
  live_vec P G b w -> lost_vec G b ->
  (debug_assertions P = true -> vd_len b <= i -> vd_get P i b = Panic PDebugAssert) /\
  (P = release ->
   exists r, vd_get P i b = Ret r /\ ref_is G r unit_id 0%Z /\
             (exists p, vr_clone_value G r w = (Panic p, w)) /\
             (exists p, vr_clone_small_value G r w = (Panic p, w))).
Proof. exact c55_lost_vec_get_fact. Qed.
Print Assumptions c55_lost_vec_get.
Example c55_lost_vec_get_ex :
  types_ok dyn_env /\
  (exists (b : vecdyn AllVTable) w, live_vec dev dyn_env b w /\ lost_vec dyn_env b) /\
  exists (b : vecdyn AllVTable) w, live_vec release dyn_env b w /\ lost_vec dyn_env b.
Proof. split; [apply dyn_env_ok|split; apply lost_live; auto]. Qed.

(** ** C56 Bulk copies of owned elements *)

Theorem c56_clone_into_vec :
  forall (V : Type) (T : FullTable V) (P : profile) (G : tenv), types_ok G ->
  forall (b : vecdyn V) w t xs cs tr,
  live_vec P G b w -> contents G b t xs ->
  clone_seq G t xs (w_trace w) = (cs, true, tr) ->
  exists vec w', vd_clone_into_vec G t b w = (Ret (Some vec), w') /\ vec_elems G t vec = Ret cs /\
                 w_trace w' = tr /\ allocated w (vec_block G t vec) w'.
Proof. exact c56_clone_into_vec_fact. Qed.
Print Assumptions c56_clone_into_vec.
Theorem c56_clone_into_vec_panics :
  forall (V : Type) (T : FullTable V) (P : profile) (G : tenv), types_ok G ->
  forall (b : vecdyn V) w t xs cs tr,
  live_vec P G b w -> contents G b t xs ->
  clone_seq G t xs (w_trace w) = (cs, false, tr) ->
  exists w', vd_clone_into_vec G t b w = (Panic PUser, w') /\ w_trace w' = tr ++ drops G t cs /\
             Permutation (w_live w) (w_live w').
Proof. exact c56_clone_into_vec_panics_fact. Qed.
Print Assumptions c56_clone_into_vec_panics.
Theorem c56_clone_into_vec_other_type :
  forall (V : Type) (T : FullTable V) (P : profile) (G : tenv), types_ok G ->
  forall (b : vecdyn V) w t xs t',
  live_vec P G b w -> contents G b t xs -> t' <> t ->
  vd_clone_into_vec G t' b w = (Ret None, w) /\
  forall vec, vd_append_cloned_to_vec G t' b vec w = (Ret false, vec, w).
Proof. exact c56_clone_into_vec_other_type_fact. Qed.
Print Assumptions c56_clone_into_vec_other_type.
Theorem c56_append_cloned_to_vec :
  forall (V : Type) (T : FullTable V) (P : profile) (G : tenv), types_ok G ->
  forall (b : vecdyn V) w t xs,
  live_vec P G b w -> contents G b t xs ->
  forall cap ys vec w1 cs ok tr,
  vec_make G t cap ys w = (Ret vec, w1) ->
  N.max (N.max (v_cap vec * 2) (lenN ys + lenN xs)) (min_non_zero_cap (t_size (G t))) *
    t_size (G t) <= max_alloc (t_align (G t)) ->
  clone_seq G t xs (w_trace w) = (cs, ok, tr) ->
  exists vec' w2,
    vd_append_cloned_to_vec G t b vec w1 = (if ok then Ret true else Panic PUser, vec', w2) /\
    vec_elems G t vec' = Ret (ys ++ cs) /\ w_trace w2 = tr /\
    Permutation (vec_block G t vec ++ w_live w2) (vec_block G t vec' ++ w_live w1).
Proof. exact c56_append_cloned_to_vec_fact. Qed.
Print Assumptions c56_append_cloned_to_vec.
Example c56_clone_into_vec_ex :
  types_ok dyn_env /\ live_vec release dyn_env (dvec release 0) (dmem release) /\
  contents dyn_env (dvec release 0) ty_string [1; 2; 3]%Z /\
  (exists tr, clone_seq dyn_env ty_string [1; 2; 3]%Z (w_trace (dmem release)) = ([1; 2; 3]%Z, true, tr)) /\
  ty_u8 <> ty_string.
Proof. hold. Qed.
Example c56_clone_into_vec_panics_ex :
  types_ok dyn_env /\ live_vec dev dyn_env (dvec dev 2) (dmem dev) /\
  contents dyn_env (dvec dev 2) ty_moody [1; 13]%Z /\
  exists tr, clone_seq dyn_env ty_moody [1; 13]%Z (w_trace (dmem dev)) = ([1]%Z, false, tr).
Proof. hold. Qed.
Example c56_append_cloned_to_vec_ex :
  exists vec w1, vec_make dyn_env ty_string 1 [5]%Z (dmem release) = (Ret vec, w1) /\
    N.max (N.max (v_cap vec * 2) (1 + 3)) (min_non_zero_cap (t_size (dyn_env ty_string))) *
      t_size (dyn_env ty_string) <= max_alloc (t_align (dyn_env ty_string)).
Proof. do 2 eexists. hold. Qed.

Theorem c56_slice_append_clone :
  forall (V : Type) (P : profile) (G : tenv), types_ok G ->
  forall t xs (vt : V) w cap ys vec w1 cs ok tr,
  slice_ok G t xs -> wf_world w -> vec_make G t cap ys w = (Ret vec, w1) ->
  N.max (N.max (v_cap vec * 2) (lenN ys + lenN xs)) (min_non_zero_cap (t_size (G t))) *
    t_size (G t) <= max_alloc (t_align (G t)) ->
  clone_seq G t xs (w_trace w) = (cs, ok, tr) ->
  exists vec' w2,
    ds_append_clone_to_vec P G t (sl_from_slice G t xs vt) vec w1 =
      (if ok then Ret true else Panic PUser, vec', w2) /\
    vec_elems G t vec' = Ret (ys ++ cs) /\ w_trace w2 = tr /\
    Permutation (vec_block G t vec ++ w_live w2) (vec_block G t vec' ++ w_live w1).
Proof. exact c56_slice_append_clone_fact. Qed.
Print Assumptions c56_slice_append_clone.
Theorem c56_slice_clone_into_vec :
  forall (V : Type) (P : profile) (G : tenv), types_ok G ->
  forall t xs (vt : V) w cs tr,
  slice_ok G t xs -> wf_world w ->
  N.max (lenN xs) (min_non_zero_cap (t_size (G t))) * t_size (G t) <= max_alloc (t_align (G t)) ->
  clone_seq G t xs (w_trace w) = (cs, true, tr) ->
  exists vec w', ds_clone_into_vec P G t (sl_from_slice G t xs vt) w = (Ret (Some vec), w') /\
    vec_elems G t vec = Ret cs /\ w_trace w' = tr /\ allocated w (vec_block G t vec) w'.
Proof. exact c56_slice_clone_into_vec_fact. Qed.
Print Assumptions c56_slice_clone_into_vec.
Theorem c56_slice_other_type :
  forall (V : Type) (P : profile) (G : tenv), types_ok G ->
  forall t xs (vt : V) w t', slice_ok G t xs -> t' <> t ->
  ds_clone_into_vec P G t' (sl_from_slice G t xs vt) w = (Ret None, w) /\
  (forall vec, ds_append_clone_to_vec P G t' (sl_from_slice G t xs vt) vec w = (Ret false, vec, w)) /\
  (forall src, dsm_clone_from_slice P G t' src (sl_from_slice G t xs vt) w =
               (Ret false, sl_from_slice G t xs vt, w)).
Proof. exact c56_slice_other_type_fact. Qed.
Print Assumptions c56_slice_other_type.
Theorem c56_clone_from_slice :
  forall (V : Type) (P : profile) (G : tenv), types_ok G ->
  forall t xs (vt : V) src ys ok tr w, slice_ok G t xs ->
  (lenN src <> lenN xs ->
   exists p, dsm_clone_from_slice P G t src (sl_from_slice G t xs vt) w =
             (Panic p, sl_from_slice G t xs vt, w)) /\
  (lenN src = lenN xs -> replace_seq G t src xs (w_trace w) = (ys, ok, tr) ->
   exists w', dsm_clone_from_slice P G t src (sl_from_slice G t xs vt) w =
              (if ok then Ret true else Panic PUser, sl_from_slice G t ys vt, w') /\
     w_trace w' = tr /\ w_live w' = w_live w).
Proof. exact c56_clone_from_slice_fact. Qed.
Print Assumptions c56_clone_from_slice.
Example c56_slice_ex :
  types_ok dyn_env /\ slice_ok dyn_env ty_string [1; 2; 3]%Z /\ wf_world w0 /\
  (exists r, vec_make dyn_env ty_string 1 [5]%Z w0 = r) /\
  lenN [4; 5; 6]%Z = lenN [1; 2; 3]%Z /\
  exists tr, replace_seq dyn_env ty_string [4; 5; 6]%Z [1; 2; 3]%Z (w_trace w0) = ([4; 5; 6]%Z, true, tr).
Proof. hold. Qed.

(** ** C57 Only copyable types end up in VecCopy *)

Theorem c57_copy_only_partial :
  forall (V : Type) (P : profile) (G : tenv) (build : tyid -> V), wf_tenv G ->
  forall b w, live_buffer P G build b w ->
  t_copy (G (vc_element_type_id b)) = true /\
  (forall t, t_copy (G t) = false -> vc_check t b = false /\
     forall x, exists w', vc_push_as P G t x b w = (if t_drop_panics (G t) (w_trace w) x then Panic PUser else Ret false, b, w')).
Proof. exact c57_copy_only_partial_fact. Qed.
Print Assumptions c57_copy_only_partial.
Example c57_copy_only_ex :
  wf_tenv ex_env /\ live_buffer release ex_env ex_build (buf release p_u32 0) (mem release p_u32) /\
  t_copy (ex_env ty_moody) = false.
Proof. split; [apply ex_env_wf|]. split; [apply u32_live; auto|vm_compute; reflexivity]. Qed.

(** A [VecCopy] of strings made by safe code: [VecCopy::with_type_from(value_ref)], [push_as] of one
    string, [clone], and [into_vec] of both buffers.  The one string is dropped twice. *)
Theorem c57_copy_only_refuted :
  exists (r : vref AllVTable) w b w1 b1 w2 b2 w3 v1 w4 v2 w5 w6 w7,
    live_ref release dyn_env r w /\ ref_is dyn_env r ty_string 3%Z /\
    t_copy (dyn_env ty_string) = false /\
    vc_with_type_from release (meta_of_vref r) w = (Ret b, w1) /\
    vc_push_as release dyn_env ty_string 77%Z b w1 = (Ret true, b1, w2) /\
    vc_clone release b1 w2 = (Ret b2, w3) /\
    vc_into_vec release dyn_env ty_string b1 w3 = (Ret (Some v1), w4) /\
    vc_into_vec release dyn_env ty_string b2 w4 = (Ret (Some v2), w5) /\
    vec_drop dyn_env ty_string v1 w5 = (Ret tt, w6) /\
    vec_drop dyn_env ty_string v2 w6 = (Ret tt, w7) /\
    events w [EvDrop ty_string 77%Z; EvDrop ty_string 77%Z] w7.
Proof.
  exists (dref release (FromVec 1 2)), (dmem release). do 12 eexists.
  split; [hold|]. split; [hold|]. repeat (split; [vm_compute; reflexivity|]). vm_compute. reflexivity.
Qed.
Print Assumptions c57_copy_only_refuted.

(** ** C58 The type information of a container is consistent *)

Theorem c58_one_source_partial :
  forall (V : Type) (T : FullTable V) (P : profile) (G : tenv), types_ok G ->
  forall t (m : meta V), t_size (G t) <> 0 -> taken_from T P G t m ->
  e_type_id (m_elem m) = t /\ num_bytes (m_elem m) = t_size (G t) /\
  e_alignment (m_elem m) = t_align (G t) /\ m_vtable m = build_vtable (V := V) t.
Proof. exact c58_one_source_partial_fact. Qed.
Print Assumptions c58_one_source_partial.
(** The fields of [Meta] are public: whatever two types it is mixed from, a vector built from it
    breaks as soon as it holds an element. *)
Theorem c58_mixed_meta :
  forall (V : Type) (T : FullTable V) (P : profile) (G : tenv), types_ok G ->
  forall t t' x w (m m' : meta V), wf_world w -> t_size (G t) <> 0 -> t_size (G t') <> 0 -> t <> t' ->
  taken_from T P G t m -> taken_from T P G t' m' ->
  exists (b : vecdyn V) w1 b1 w2,
    vd_with_type_from P (Meta (m_elem m) (m_vtable m')) w = (Ret b, w1) /\
    vd_push_as P G t x b w1 = (Ret true, b1, w2) /\ contents G b1 t [x] /\
    vd_drop P G b1 w2 = (if t_size (G t) =? t_size (G t') then UB UbValue else Panic PAssert, w2).
Proof. exact c58_mixed_meta_fact. Qed.
Print Assumptions c58_mixed_meta.
Example c58_ex :
  types_ok dyn_env /\ wf_world w0 /\ t_size (dyn_env ty_string) <> 0 /\ t_size (dyn_env ty_u32) <> 0 /\
  ty_string <> ty_u32 /\
  taken_from _ release dyn_env ty_string (meta_of_vecdyn (dvec release 1)) /\
  taken_from _ release dyn_env ty_u32 (meta_of_slice (sl_from_slice dyn_env ty_u32 [1]%Z (build_vtable (V := AllVTable) ty_u32))).
Proof.
  split; [hold|]. split; [hold|]. split; [hold|]. split; [hold|]. split; [hold|]. split.
  - left. exists (dvec release 1), (dmem release), [1; 2; 3]%Z. hold.
  - right. right. right. eauto.
Qed.

(** Two types of the same size. *)
Theorem c58_mixed_refuted :
  exists (m m' : meta AllVTable) b w1 b1 w2 u w3,
    taken_from _ release dyn_env ty_box m /\ taken_from _ release dyn_env ty_moody m' /\
    vd_with_type_from release (Meta (m_elem m) (m_vtable m')) w0 = (Ret b, w1) /\
    vd_push_as release dyn_env ty_box 7%Z b w1 = (Ret true, b1, w2) /\
    vd_drop release dyn_env b1 w2 = (UB u, w3).
Proof.
  exists (meta_of_vref (vl_as_ref (dval release 9))), (meta_of_vref (vl_as_ref (dval release 11))).
  do 6 eexists. split; [|split].
  - right. right. left. exists (dval release 9), (dmem release), 4%Z. split; [hold|]. split; [hold|auto].
  - right. right. left. exists (dval release 11), (dmem release), 13%Z. split; [hold|]. split; [hold|auto].
  - split; [vm_compute; reflexivity|]. split; [vm_compute; reflexivity|]. vm_compute; reflexivity.
Qed.
Print Assumptions c58_mixed_refuted.

(** ** C61 Programs over VecDyns and values behave as programs over lists *)

Theorem c61_programs_partial :
  forall (V : Type) (T : FullTable V) (P : profile) (G : tenv), types_ok G ->
  forall prog rs st,
  Forall (dstep_typed G) prog -> dyn_in_range P G prog (d_init (V := V)) ->
  drun P G prog (d_init (V := V)) = (map Ret rs, st) ->
  exists lst, dyn_run G prog (LState [] []) = Some (rs, lst) /\ shows_objects G st lst.
Proof. exact c61_programs_partial_fact. Qed.
Print Assumptions c61_programs_partial.
(** [p_keep] meets the hypotheses: see [c28_exact_ex].  What it reports about vectors 0 and 1: *)
Example c61_programs_ex : forall P, P = dev \/ P = release ->
  nth_error (fst (drun P dyn_env p_keep (d_init (V := AllVTable)))) 21 =
    Some (Ret (DObs (AVals (Some [1; 7]%Z)))) /\
  nth_error (fst (drun P dyn_env p_keep (d_init (V := AllVTable)))) 24 =
    Some (Ret (DObs (AVals (Some [1; 7; 8; 2; 3]%Z)))).
Proof. intros P [-> | ->]; split; vm_compute; reflexivity. Qed.

Theorem c61_programs_refuted :
  exists prog rs st,
    Forall (dstep_typed dyn_env) prog /\
    drun release dyn_env prog (d_init (V := AllVTable)) = (map Ret rs, st) /\
    dyn_run dyn_env prog (LState [] []) = None.
Proof.
  exists [DFromSlice ty_u8x3 [1; 2]%Z; DCall 0 (VRotL 12297829382473034411)].
  exists [DObs AUnit; DObs AUnit]. eexists.
  csplit; [typed_dprog|vm_compute; reflexivity|vm_compute; reflexivity].
Qed.
Print Assumptions c61_programs_refuted.

(** ** C63 The raw parts of a boxed value *)

Theorem c63_raw_box_partial :
  forall (V : Type) (T : FullTable V) (P : profile) (G : tenv), types_ok G ->
  forall (v : value V) w t x b, live_val P G v w -> value_is G v t x -> vl_store v = Boxed b ->
  let '((store, bytes), _, _, _) := vl_into_raw_parts v in
  (t_size (G t) = 0 \/ t_align (G t) = 1 ->
     exists w', byte_box_drop (ByteBox b bytes) w = (Ret tt, w') /\ events w [] w') /\
  (t_size (G t) <> 0 -> t_align (G t) <> 1 ->
     exists u w', byte_box_drop (ByteBox b bytes) w = (UB u, w')).
Proof. exact c63_raw_box_partial_fact. Qed.
Print Assumptions c63_raw_box_partial.
Example c63_raw_box_ex :
  types_ok dyn_env /\ live_val release dyn_env (dval release 7) (dmem release) /\
  value_is dyn_env (dval release 7) ty_tag 9%Z /\ (exists b, vl_store (dval release 7) = Boxed b) /\
  t_align (dyn_env ty_tag) = 1 /\ t_align (dyn_env ty_string) <> 1.
Proof. hold. Qed.

Theorem c63_raw_box_refuted :
  exists (v : value AllVTable) w b bytes t al tab u w',
    live_val release dyn_env v w /\ value_is dyn_env v ty_string 7%Z /\
    vl_into_raw_parts v = ((Boxed b, bytes), t, al, tab) /\
    byte_box_drop (ByteBox b bytes) w = (UB u, w').
Proof. exists (dval release 5), (dmem release). do 7 eexists. hold. Qed.
Print Assumptions c63_raw_box_refuted.

(** ** C67 Reborrowed and converted views *)

Theorem c67_reborrow :
  forall (V : Type) (T : FullTable V) (G : tenv) (r : vref V) (m : vmut V),
  same_view T G r (vr_reborrow r) /\ same_mut T G m (vm_reborrow_mut m) /\
  view_of_mut T G m (vm_reborrow m) /\ view_of_mut T G m (vr_of_vm m).
Proof. exact c67_reborrow_fact. Qed.
Print Assumptions c67_reborrow.
Theorem c67_copy_views :
  forall (V : Type) (G : tenv) (r : copy_ref V) (m : copy_mut V),
  (vr_type_id (vr_of_cr r) = cr_type_id r /\
   (forall t, vr_downcast G t (vr_of_cr r) = cr_downcast G t r) /\
   m_elem (meta_of_vref (vr_of_cr r)) = m_elem (meta_of_copy_ref r) /\
   snd (vt_as_ref (vr_vtable (vr_of_cr r))) = cr_vtable r /\
   forall bs w, call_drop G (fst (vt_as_ref (vr_vtable (vr_of_cr r)))) bs w = (Ret tt, w)) /\
  (vm_type_id (vm_of_cm m) = cm_type_id m /\
   vm_bytes (vm_of_cm m) = cm_bytes m /\
   m_elem (meta_of_vmut (vm_of_cm m)) =
     ElemInfo (cm_type_id m) (lenN (cm_bytes m) / cm_alignment m) (cm_alignment m) /\
   snd (vt_as_ref (vm_vtable (vm_of_cm m))) = cm_vtable m /\
   forall bs w, call_drop G (fst (vt_as_ref (vm_vtable (vm_of_cm m)))) bs w = (Ret tt, w)).
Proof. exact c67_copy_views_fact. Qed.
Print Assumptions c67_copy_views.
Theorem c67_slice_reborrow :
  forall (V : Type) (P : profile) (G : tenv) (s : slicecopy V),
  let s' := sl_reborrow s in
  sl_len P s' = sl_len P s /\ sl_element_type_id s' = sl_element_type_id s /\
  meta_of_slice s' = meta_of_slice s /\
  (forall t, sl_as_slice P G t s' = sl_as_slice P G t s) /\
  (forall t i, sl_get_as P G t i s' = sl_get_as P G t i s) /\
  (forall i, sl_get P i s' = sl_get P i s) /\
  sl_iter s' = sl_iter s /\
  (forall r, sl_subslice P r s' = sl_subslice P r s) /\
  (forall k, sl_split_at P k s' = sl_split_at P k s) /\
  (forall k, sl_chunks_exact P k s' = sl_chunks_exact P k s) /\
  sl_into_raw_parts s' = sl_into_raw_parts s.
Proof. exact c67_slice_reborrow_fact. Qed.
Print Assumptions c67_slice_reborrow.
Theorem c67_from_value :
  forall (V : Type) (T : FullTable V) (G : tenv) (v : value V),
  same_view T G (vl_as_ref v) (vr_of_value v) /\
  forall t, vr_downcast G t (vr_of_value v) =
            if vl_type_id v =? t then let! x := from_bytes G t (vl_bytes v) in Ret (Some x) else Ret None.
Proof. exact c67_from_value_fact. Qed.
Print Assumptions c67_from_value.
Theorem c67_new_views :
  forall (V : Type) (T : FullTable V) (G : tenv) t x, is_value G t x ->
  ref_is G (vr_new (V := V) G t x) t x /\
  vm_type_id (vm_new (V := V) G t x) = t /\ vm_downcast G t (vm_new (V := V) G t x) = Ret (Some x) /\
  (forall t', t' <> t -> vr_downcast G t' (vr_new (V := V) G t x) = Ret None /\
                         vm_downcast G t' (vm_new (V := V) G t x) = Ret None) /\
  view_of_mut T G (vm_new G t x) (vr_new G t x).
Proof. exact c67_new_views_fact. Qed.
Print Assumptions c67_new_views.
(** These hold of all views; here are two that show something. *)
Example c67_ex :
  ref_is dyn_env (vm_reborrow (vm_reborrow_mut (vl_as_mut (dval release 5)))) ty_string 7%Z /\
  vr_downcast dyn_env ty_u32 (vr_of_cr (copy_ref_new dyn_env ty_u32 5%Z (build_vtable (V := AllVTable) ty_u32))) = Ret (Some 5%Z).
Proof. hold. Qed.
Example c67_more_ex :
  ref_is dyn_env (vr_of_value (dval release 5)) ty_string 7%Z /\ is_value dyn_env ty_string 7%Z /\
  sl_as_slice release dyn_env ty_u32
    (sl_reborrow (sl_from_slice dyn_env ty_u32 [1; 2]%Z (build_vtable (V := AllVTable) ty_u32)))
    = Ret (Some [1; 2]%Z).
Proof.
  split; [split; vm_compute; reflexivity|split; [now intros ?|vm_compute; reflexivity]].
Qed.

(** ** C73 into_dyn! and from_dyn! *)

(** Converting back with the same table type gives the container back. *)
Theorem c73_round_trip :
  forall (Tab : tyid -> Type) (P : profile) k,
  (forall (b : vecdyn (Tab k)) w, vd_from_dyn Tab P k (vd_into_dyn Tab b) w = (Ret b, w)) /\
  (forall (b : veccopy (Tab k)) w, vc_from_dyn Tab P k (vc_into_dyn Tab b) w = (Ret b, w)).
Proof. exact c73_round_trip_fact. Qed.
Print Assumptions c73_round_trip.
(** The container with the trait object behaves as before. *)
Theorem c73_same_behaviour :
  forall (Tab : tyid -> Type) (P : profile) (G : tenv) k (b : vecdyn (Tab k)),
  (forall t xs, contents G b t xs <-> contents G (vd_into_dyn Tab b) t xs) /\
  (forall D : (forall j, HasDrop (Tab j)),
     (forall w, vd_drop P G (vd_into_dyn Tab b) w = vd_drop P G b w) /\
     (forall w, vd_clear P G (vd_into_dyn Tab b) w =
        let '(o, b', w') := vd_clear P G b w in (o, vd_into_dyn Tab b', w'))) /\
  (forall C : (forall j, HasClone (Tab j)),
     forall w, vd_clone P G (vd_into_dyn Tab b) w =
        let '(o, w') := vd_clone P G b w in (let! b' := o in Ret (vd_into_dyn Tab b'), w')) /\
  (forall H : (forall j, HasHash (Tab j)), vd_hash P G (vd_into_dyn Tab b) = vd_hash P G b) /\
  (forall F : (forall j, HasDebug (Tab j)), vd_fmt P G (vd_into_dyn Tab b) = vd_fmt P G b) /\
  (forall E : (forall j, HasPartialEq (Tab j)) , forall b' : vecdyn (Tab k),
     vd_eq P G (vd_into_dyn Tab b) (vd_into_dyn Tab b') = vd_eq P G b b').
Proof. exact c73_same_behaviour_fact. Qed.
Print Assumptions c73_same_behaviour.
Theorem c73_slice :
  forall (Tab : tyid -> Type) (P : profile) (G : tenv) k (s : slicecopy (Tab k)) t i,
  sl_as_slice P G t (sl_into_dyn Tab s) = sl_as_slice P G t s /\
  sl_len P (sl_into_dyn Tab s) = sl_len P s /\
  sl_get_as P G t i (sl_into_dyn Tab s) = sl_get_as P G t i s /\
  sl_element_type_id (sl_into_dyn Tab s) = sl_element_type_id s.
Proof. exact c73_slice_fact. Qed.
Print Assumptions c73_slice.
Definition ex_tab : tyid -> Type := fun _ => AllVTable.
Example c73_same_behaviour_ex :
  contents dyn_env (vd_into_dyn ex_tab (k := 1) (dvec release 0)) ty_string [1; 2; 3]%Z.
Proof. hold. Qed.

(** With another table type, [from_dyn!] panics and frees the memory, and drops no element. *)
Theorem c73_other_table :
  forall (Tab : tyid -> Type) (P : profile) (G : tenv) k (T : FullTable (Tab k)), types_ok G ->
  forall (b : vecdyn (Tab k)) w t xs j,
  live_vec P G b w -> contents G b t xs -> j <> k ->
  exists w', vd_from_dyn Tab P j (vd_into_dyn Tab b) w = (Panic PAssert, w') /\
             events w [] w' /\ freed w (buf_block b) w'.
Proof. exact c73_other_table_fact. Qed.
Print Assumptions c73_other_table.
Example c73_other_table_ex :
  types_ok dyn_env /\ live_vec release dyn_env (dvec release 0) (dmem release) /\
  contents dyn_env (dvec release 0) ty_string [1; 2; 3]%Z /\ 2 <> 1.
Proof. hold. Qed.
(** For copied elements nothing is lost. *)
Theorem c73_copy_other_table :
  forall (Tab : tyid -> Type) (P : profile) (G : tenv) k (build : tyid -> Tab k), wf_tenv G ->
  forall (b : veccopy (Tab k)) w t xs j,
  live_buffer P G build b w -> shows G b t xs -> j <> k ->
  exists w', vc_from_dyn Tab P j (vc_into_dyn Tab b) w = (Panic PAssert, w') /\
             events w [] w' /\ freed w (buf_block b) w'.
Proof. exact c73_copy_other_table_fact. Qed.
Print Assumptions c73_copy_other_table.

Theorem c73_from_dyn_refuted :
  exists (b : vecdyn (ex_tab 1)) w w',
    live_vec (V := AllVTable) release dyn_env b w /\ contents dyn_env b ty_string [1; 2; 3]%Z /\
    drops dyn_env ty_string [1; 2; 3]%Z = map (EvDrop ty_string) [1; 2; 3]%Z /\
    vd_from_dyn ex_tab release 2 (vd_into_dyn ex_tab b) w = (Panic PAssert, w') /\ w_trace w' = w_trace w.
Proof. exists (dvec release 0), (dmem release). eexists. hold. Qed.
Print Assumptions c73_from_dyn_refuted.

(** ** C75 The unchecked accessors *)

Theorem c75_unchecked_copy :
  forall (V : Type) (P : profile) (G : tenv) (build : tyid -> V), wf_tenv G ->
  forall b w t xs i,
  live_buffer P G build b w -> shows G b t xs ->
  (forall x, nthN xs i = Some x ->
     vc_get_unchecked G t i b = Ret x /\
     forall v, exists b', vc_set_unchecked G t i v b = (Ret tt, b') /\
       shows G b' t (list_set xs (N.to_nat i) v) /\ vc_capacity b' = vc_capacity b) /\
  (lenN xs <= i -> vc_get_unchecked G t i b = UB UbOob /\ forall v, vc_set_unchecked G t i v b = (UB UbOob, b)).
Proof. exact c75_unchecked_copy_fact. Qed.
Print Assumptions c75_unchecked_copy.
Theorem c75_unchecked_dyn :
  forall (V : Type) (T : FullTable V) (P : profile) (G : tenv), types_ok G ->
  forall (b : vecdyn V) w t xs i x,
  live_vec P G b w -> contents G b t xs -> nthN xs i = Some x ->
  vd_get_unchecked G t i b = Ret x /\
  forall v, vd_set_unchecked G t i v b w =
    let '(o, b', w') := vd_set_as G t i v b w in (let! _ := o in Ret tt, b', w').
Proof. exact c75_unchecked_dyn_fact. Qed.
Print Assumptions c75_unchecked_dyn.
Example c75_unchecked_ex :
  types_ok dyn_env /\ live_vec release dyn_env (dvec release 0) (dmem release) /\
  contents dyn_env (dvec release 0) ty_string [1; 2; 3]%Z /\ nthN [1; 2; 3]%Z 2 = Some 3%Z /\
  live_buffer release ex_env ex_build (buf release p_u32 0) (mem release p_u32) /\
  shows ex_env (buf release p_u32 0) ty_u32 [10; 20; 30]%Z /\ nthN [10; 20; 30]%Z 1 = Some 20%Z.
Proof.
  split; [hold|]. split; [hold|]. split; [hold|]. split; [reflexivity|].
  split; [apply u32_live; auto|]. split; [apply u32_shows; auto|reflexivity].
Qed.

(** ** C76 Cloning through a view for writing *)

Theorem c76_clone_through_mut :
  forall (V : Type) (T : FullTable V) (P : profile) (G : tenv), types_ok G ->
  forall (m : vmut V) w t x,
  ((exists v, live_val P G v w /\ value_is G v t x /\ m = vl_as_mut v) \/
   (exists b xs i off, live_vec P G b w /\ contents G b t xs /\ nthN xs i = Some x /\
                       vd_get_mut P i b = Ret (off, m))) ->
  match t_clone (G t) (w_trace w) x with
  | Some c =>
      (exists v' w', vm_clone_value G m w = (Ret v', w') /\ value_is G v' t c /\
                     (exists b, vl_store v' = Boxed b) /\
                     events w [EvClone t x c] w' /\ allocated w (val_blocks v') w') /\
      (t_size (G t) = 8 ->
       exists v' w', vm_clone_small_value G m w = (Ret v', w') /\ value_is G v' t c /\
                     vl_store v' = Inline /\
                     events w [EvClone t x c] w' /\ allocated w (val_blocks v') w')
  | None => vm_clone_value G m w = (Panic PUser, w) /\
            (t_size (G t) = 8 -> vm_clone_small_value G m w = (Panic PUser, w))
  end.
Proof. exact c76_clone_through_mut_fact. Qed.
Print Assumptions c76_clone_through_mut.
Example c76_clone_through_mut_ex :
  types_ok dyn_env /\ live_val release dyn_env (dval release 9) (dmem release) /\
  value_is dyn_env (dval release 9) ty_box 4%Z /\ t_size (dyn_env ty_box) = 8 /\
  live_vec release dyn_env (dvec release 0) (dmem release) /\
  contents dyn_env (dvec release 0) ty_string [1; 2; 3]%Z /\ nthN [1; 2; 3]%Z 2 = Some 3%Z /\
  exists off m, vd_get_mut release 2 (dvec release 0) = Ret (off, m).
Proof.
  do 7 (split; [hold|]). do 2 eexists. vm_compute. reflexivity.
Qed.

(** ** C77 Containers that implement [Eq] are equal to themselves *)

Theorem c77_reflexive_partial :
  forall (V : Type) (T : FullTable V) (P : profile) (G : tenv), types_ok G ->
  forall t, (forall x, t_eq (G t) x x = true) ->
  (forall (b : vecdyn V) w xs, live_vec P G b w -> contents G b t xs -> vd_eq P G b b = Ret true) /\
  (forall (v : value V) w x, live_val P G v w -> value_is G v t x -> vl_eq G v v = Ret true) /\
  (forall (r : vref V) w x, live_ref P G r w -> ref_is G r t x -> t <> unit_id -> vr_eq G r r = Ret true).
Proof. exact c77_reflexive_partial_fact. Qed.
Print Assumptions c77_reflexive_partial.
Example c77_reflexive_ex :
  types_ok dyn_env /\ (forall x, t_eq (dyn_env ty_string) x x = true) /\
  live_vec release dyn_env (dvec release 0) (dmem release) /\
  contents dyn_env (dvec release 0) ty_string [1; 2; 3]%Z.
Proof. split; [hold|]. split; [intros x; apply Z.eqb_refl|]. hold. Qed.
Theorem c77_irreflexive :
  forall (V : Type) (T : FullTable V) (P : profile) (G : tenv), types_ok G ->
  forall t x, t_eq (G t) x x = false ->
  (forall (b : vecdyn V) w xs, live_vec P G b w -> contents G b t xs -> In x xs -> vd_eq P G b b = Ret false) /\
  (forall (v : value V) w, live_val P G v w -> value_is G v t x -> vl_eq G v v = Ret false).
Proof. exact c77_irreflexive_fact. Qed.
Print Assumptions c77_irreflexive.
Example c77_irreflexive_ex :
  types_ok dyn_env /\ t_eq (dyn_env ty_f32) 99%Z 99%Z = false /\
  live_vec release dyn_env (dvec release 13) (dmem release) /\
  contents dyn_env (dvec release 13) ty_f32 [99]%Z /\ In 99%Z [99]%Z.
Proof. do 4 (split; [hold|]). now left. Qed.

(** The table [EqVTable], for which vectors and values implement [Eq], can be built for a type that
    is only [PartialEq], such as [f32]. *)
Theorem c77_eq_refuted :
  exists (E : HasEq EqVTable) v w w1 (b : vecdyn EqVTable) w2 (x : value EqVTable) w3,
    vec_make dyn_env ty_f32 1 [99]%Z w = (Ret v, w1) /\
    vd_from_vec dyn_env ty_f32 v w1 = (Ret b, w2) /\ vd_eq release dyn_env b b = Ret false /\
    bv_new dyn_env ty_f32 99%Z w2 = (x, w3) /\ vl_eq dyn_env x x = Ret false.
Proof. exists _. eexists. exists w0. do 5 eexists. hold. Qed.
Print Assumptions c77_eq_refuted.

(** ** C82 Programs over VecDyns and values that catch panics *)

Theorem c82_programs :
  forall (V : Type) (T : FullTable V) (P : profile) (G : tenv), types_ok G ->
  forall prog rs st,
  Forall (dstep_typed G) prog -> dyn_in_range P G prog (d_init (V := V)) ->
  drun P G prog (d_init (V := V)) = (rs, st) ->
  exists lst, dacts_all G prog (LState [] []) (map step_report rs) lst /\ shows_objects G st lst.
Proof. exact c82_programs_fact. Qed.
Print Assumptions c82_programs.
(** A clone that panics in the middle of a vector, an out-of-range rotation that loses the contents
    of a vector, uses of the lost vector, a value whose clone panics, an out-of-range assignment
    that uses up the value; the other vector and the other values stay right. *)
Definition p_mishaps : list dstep :=
  [DFromSlice ty_string [1; 2; 3]%Z; DFromVec ty_moody 2 [5; 13]%Z; DClone 1;
   DCall 0 (VRotL 4); DCall 0 VLen; DCall 0 (VReadAs ty_string); DClone 1;
   OBox ty_moody 13%Z; OClone 2; OBox ty_moody 6%Z; DAssign 1 9 3; OEq 3 3;
   DAssign 1 0 2; DCall 1 (VReadAs ty_moody); DFromSlice ty_marker [0]%Z; DDrop 0; DDrop 0; DDrop 1].
Example c82_programs_ex : forall P, P = dev \/ P = release ->
  types_ok dyn_env /\ Forall (dstep_typed dyn_env) p_mishaps /\
  dyn_in_range P dyn_env p_mishaps (d_init (V := AllVTable)) /\
  map step_report (fst (drun P dyn_env p_mishaps (d_init (V := AllVTable)))) =
    [Some (DObs AUnit); Some (DObs AUnit); None; None; Some (DObs (ANum 0)); Some (DObs (AVals None)); None;
     Some (DObs AUnit); None; Some (DObs AUnit); None; Some DInvalid; Some (DObs AUnit);
     Some (DObs (AVals (Some [13; 13]%Z))); None; None; Some DInvalid; Some (DObs AUnit)].
Proof.
  intros P [-> | ->]; (csplit; [apply dyn_env_ok|typed_dprog|vm_compute; intuition (try discriminate; auto)
    |vm_compute; reflexivity]).
Qed.

(** What DynPanicSpec.v implies: a step leaves the objects it does not name alone ... *)
Theorem c82_other_objects :
  forall (G : tenv) st s r st' h,
  dacts G st s r st' -> (h < List.length (l_objs st))%nat -> ~ In h (names s) ->
  nth_error (l_objs st') h = nth_error (l_objs st) h.
Proof. exact c82_other_objects_fact. Qed.
Print Assumptions c82_other_objects.
Example c82_other_objects_ex :
  dacts dyn_env (LState [Some (LVec ty_string [1]%Z); Some (LVec ty_tag [2]%Z)] []) (DCall 0 (VRotL 9)) None
    (LState [Some LLost; Some (LVec ty_tag [2]%Z)] []) /\ ~ In 1%nat (names (DCall 0 (VRotL 9))).
Proof.
  split; [|cbn; intuition discriminate].
  apply D_panic. exists None, []. split; [|reflexivity].
  split; [reflexivity|]. left. csplit; [reflexivity|vm_compute; discriminate|reflexivity].
Qed.

(** ... a vector without contents stays so until it is dropped or converted ... *)
Theorem c82_lost :
  forall (G : tenv) st s r st' h,
  dacts G st s r st' -> lget st h = Some LLost ->
  lget st' h = Some LLost \/ lget st' h = None /\ (s = DDrop h \/ exists t, s = DIntoVec h t).
Proof. exact c82_lost_fact. Qed.
Print Assumptions c82_lost.
Example c82_lost_ex :
  dacts dyn_env (LState [Some LLost] []) (DDrop 0) (Some (DObs AUnit)) (LState [None] []).
Proof.
  apply D_lost; [exists 0%nat; cbn; auto|reflexivity|exists []; split; [constructor|reflexivity]].
Qed.

(** ... and the steps that name no such vector do what the lists say. *)
Theorem c82_returns :
  forall (G : tenv) st s r st',
  dacts G st s r st' -> ~ uses_lost st s ->
  match r with
  | Some o => dyn_step G s st = Some (o, st')
  | None => step_leaves G s st st'
  end.
Proof. exact c82_returns_fact. Qed.
Print Assumptions c82_returns.
Example c82_returns_ex :
  dacts dyn_env (LState [Some LLost; Some (LVec ty_moody [5; 13]%Z)] []) (DClone 1) None
    (LState [Some LLost; Some (LVec ty_moody [5; 13]%Z)] [EvClone ty_moody 5%Z 5%Z]) /\
  ~ uses_lost (LState [Some LLost; Some (LVec ty_moody [5; 13]%Z)] []) (DClone 1).
Proof.
  split.
  - apply D_panic. exists [5]%Z. eexists. split; vm_compute; reflexivity.
  - intros (h & [<-|[]] & HE). discriminate.
Qed.

(** ** C83 Whatever the position, only whole elements are reached *)

Theorem c83_vec_any_build :
  forall (V : Type) (T : FullTable V) (P : profile) (G : tenv), types_ok G ->
  forall (b : vecdyn V) w t xs, live_vec P G b w -> contents G b t xs ->
  forall i, panics_or (vd_get P i b) (vd_get release i b) /\
            panics_or (vd_get_mut P i b) (vd_get_mut release i b).
Proof. exact c83_vec_any_build_fact. Qed.
Print Assumptions c83_vec_any_build.
Theorem c83_vec_release_partial :
  forall (V : Type) (T : FullTable V) (P : profile) (G : tenv), types_ok G -> unchecked P ->
  forall (b : vecdyn V) w t xs m, live_vec P G b w -> contents G b t xs -> m * t_size (G t) = 2 ^ 64 ->
  forall i,
  match nthN xs (i mod m) with
  | Some x => exists r off r', vd_get P i b = Ret r /\ ref_is G r t x /\
                vd_get_mut P i b = Ret (off, r') /\ vm_type_id r' = t /\ vm_downcast G t r' = Ret (Some x) /\
                off = (i mod m) * t_size (G t)
  | None => is_panic (vd_get P i b) /\ is_panic (vd_get_mut P i b)
  end.
Proof. exact c83_vec_release_partial_fact. Qed.
Print Assumptions c83_vec_release_partial.
Theorem c83_vec_torn_refuted :
  forall (V : Type) (T : FullTable V) (P : profile) (G : tenv), types_ok G -> unchecked P ->
  forall (b : vecdyn V) w t xs, live_vec P G b w -> contents G b t xs -> 2 <= lenN xs ->
  ~ (exists m, m * t_size (G t) = 2 ^ 64) ->
  exists i r off r', i <= usize_max /\
    vd_get P i b = Ret r /\ vr_downcast G t r = UB UbValue /\
    vr_clone_value G r w = (UB UbValue, w) /\
    vd_get_mut P i b = Ret (off, r') /\ vm_downcast G t r' = UB UbValue.
Proof. exact c83_vec_torn_refuted_fact. Qed.
Print Assumptions c83_vec_torn_refuted.
Example c83_vec_ex :
  types_ok dyn_env /\ unchecked release /\
  live_vec release dyn_env (dvec release 0) (dmem release) /\
  contents dyn_env (dvec release 0) ty_string [1; 2; 3]%Z /\ 2 <= lenN [1; 2; 3]%Z /\
  ~ (exists m, m * t_size (dyn_env ty_string) = 2 ^ 64).
Proof.
  csplit; try solve [hold]; [now split|].
  intros [m Hm]. change (t_size (dyn_env ty_string)) with 24 in Hm.
  apply (f_equal (fun n => n mod 3)) in Hm. replace (m * 24) with (m * 8 * 3) in Hm by lia.
  rewrite N.mod_mul in Hm by discriminate. vm_compute in Hm. discriminate.
Qed.

(** ** C84 Pushing allocates only logarithmically often *)

Theorem c84_vec_push_as :
  forall (V : Type) (T : FullTable V) (P : profile) (G : tenv), types_ok G ->
  forall (b : vecdyn V) w t xs vs,
  live_vec P G b w -> contents G b t xs ->
  grown (t_size (G t)) (lenN (xs ++ vs)) * t_size (G t) <= max_alloc (t_align (G t)) ->
  exists b' w' g,
    push_each (vd_push_as P G t) vs b w = (Ret true, b', w') /\ contents G b' t (xs ++ vs) /\
    w_trace w' = w_trace w /\
    allocations w w' g /\ g <= 1 + N.log2 (lenN (xs ++ vs)) /\ (g = 0 -> w' = w).
Proof. exact c84_vec_push_as_fact. Qed.
Print Assumptions c84_vec_push_as.
Theorem c84_vec_with_capacity :
  forall (V : Type) (T : FullTable V) (P : profile) (G : tenv), types_ok G ->
  forall t n vs w,
  wf_world w -> t_size (G t) <> 0 -> n * t_size (G t) <= max_alloc (t_align (G t)) -> lenN vs <= n ->
  exists (b : vecdyn V) w1 b',
    vd_with_capacity G t n w = (Ret b, w1) /\
    push_each (vd_push_as P G t) vs b w1 = (Ret true, b', w1) /\ contents G b' t vs.
Proof. exact c84_vec_with_capacity_fact. Qed.
Print Assumptions c84_vec_with_capacity.
Example c84_vec_ex :
  types_ok dyn_env /\ live_vec release dyn_env (dvec release 0) (dmem release) /\
  contents dyn_env (dvec release 0) ty_string [1; 2; 3]%Z /\
  grown (t_size (dyn_env ty_string)) (lenN ([1; 2; 3] ++ repeat 7 40)%Z) * t_size (dyn_env ty_string)
    <= max_alloc (t_align (dyn_env ty_string)) /\
  allocations (dmem release)
    (snd (push_each (vd_push_as release dyn_env ty_string) (repeat 7%Z 40) (dvec release 0) (dmem release))) 4.
Proof. csplit; try solve [hold]. all: vm_compute; first [discriminate|reflexivity]. Qed.

(** ** C85 Programs with destructors that panic *)

(** Any destructor may panic at any moment.  Without [clear] and [resize] every value is still
    dropped at most once. *)
Theorem c85_accounting :
  forall (V : Type) (T : FullTable V) (P : profile) (G : tenv), wf_tenv G -> clones_ok G ->
  forall prog rs st,
  Forall (dstep_typed G) prog -> dyn_in_range P G prog (d_init (V := V)) ->
  drun P G prog (d_init (V := V)) = (rs, st) ->
  (forall u, ~ In (UB u) rs) /\
  (In Abort rs \/
   List.length rs = List.length prog /\
   exists lost again leak,
     Permutation (given G prog rs ++ cloned G (w_trace (d_world st)) ++ again)
                 (stored G st ++ taken G prog rs ++ dropped G (w_trace (d_world st)) ++ lost) /\
     Permutation (w_live (d_world st)) (obj_blocks_of st ++ leak) /\
     (none_left_dropped prog rs -> again = []) /\
     (forall as_, rs = map Ret as_ -> keeps_all prog as_ -> lost = [] /\ leak = [])).
Proof. exact c85_accounting_fact. Qed.
Print Assumptions c85_accounting.
(** A vector is dropped, filled, overwritten; an owned value is assigned; all of these panic. *)
Definition p_edgy : list dstep :=
  [DFromVec ty_string 4 [1; 66; 2]%Z; DCall 0 (VFill ty_string 7%Z); DCall 0 (VReadAs ty_string);
   DFromVec ty_string 2 [4; 66; 3]%Z; DDrop 1; OBox ty_string 66%Z; OBox ty_string 8%Z; OAssign 2 3;
   DWithSize ty_string 0 66%Z; DFromVec ty_string 2 [66; 9]%Z;
   DCall 4 (VCloneFromSlice ty_string [20; 21]%Z); DIntoVec 4 ty_string; DDrop 0].
Example c85_ex :
  wf_tenv edgy_env /\ clones_ok edgy_env /\ Forall (dstep_typed edgy_env) p_edgy /\
  dyn_in_range release edgy_env p_edgy (d_init (V := AllVTable)) /\
  exists st, drun release edgy_env p_edgy (d_init (V := AllVTable)) =
    ([Ret (DObs AUnit); Panic PUser; Ret (DObs (AVals (Some [7; 7; 2]%Z))); Ret (DObs AUnit); Panic PUser;
      Ret (DObs AUnit); Ret (DObs AUnit); Panic PUser; Panic PUser; Ret (DObs AUnit); Panic PUser;
      Ret (DObs (AVals (Some [20; 9]%Z))); Ret (DObs AUnit)], st) /\
    none_left_dropped p_edgy (fst (drun release edgy_env p_edgy (d_init (V := AllVTable)))).
Proof.
  csplit; try apply edgy_env_ok; [typed_dprog|vm_compute; intuition (try discriminate; auto)|].
  eexists. split; [vm_compute; reflexivity|].
  intros s p H. vm_compute in H.
  repeat (destruct H as [H|H]; [first [discriminate H|injection H as <- _; reflexivity]|]). contradiction.
Qed.
