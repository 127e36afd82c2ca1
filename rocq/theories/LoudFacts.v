(** * LoudFacts: converting a [VecDyn] whose elements have panicking destructors (C30). *)

From Verif Require Import SliceFacts DynFacts2 DynFacts8.
From Verif Require Export LoudSpec.

Lemma drop_vals_panicking G t xs w :
  drop_vals G t xs w =
    (match panicking G t (w_trace w) xs with [] => Ret tt | [_] => Panic PUser | _ => Abort end,
     set_tr (w_trace w ++ drops G t xs) w).
Proof.
  revert w. induction xs as [|x xs IH]; intros w; cbn [drop_vals panicking].
  - now rewrite drops_nil, app_nil_r, set_tr_same.
  - assert (E : drop_val G t x w =
                (if negb (t_copy (G t)) && t_drop_panics (G t) (w_trace w) x then Panic PUser else Ret tt,
                 set_tr (w_trace w ++ drops G t [x]) w)).
    { unfold drop_val, drops. destruct (t_copy (G t)); cbn [negb andb map].
      - now rewrite app_nil_r, set_tr_same.
      - reflexivity. }
    rewrite E. specialize (IH (set_tr (w_trace w ++ drops G t [x]) w)).
    rewrite set_tr_trace, set_tr_set, <- app_assoc, <- drops_cons in IH.
    destruct (negb (t_copy (G t)) && t_drop_panics (G t) (w_trace w) x); rewrite IH; [|reflexivity].
    cbn [app]. now destruct (panicking _ _ _ _) as [|? [|? ?]].
Qed.

(** A [Vec<T>] made of the vector drops all elements, each once, even if one destructor panics. *)
Lemma c30_into_vec_fact :
  forall (V : Type) (T : FullTable V) (P : profile) (G : tenv), wf_tenv G -> clones_ok G ->
  forall (b : vecdyn V) w t xs,
  running_vec P G b w -> contents G b t xs ->
  exists vec, vd_into_vec P G t b w = (Ret (Some vec), w) /\ vec_elems G t vec = Ret xs /\
    exists w',
      vec_drop G t vec w =
        (match panicking G t (w_trace w) xs with [] => Ret tt | [_] => Panic PUser | _ => Abort end, w') /\
      (lenN (panicking G t (w_trace w) xs) <= 1 ->
       events w (drops G t xs) w' /\ freed w (buf_block b) w').
Proof.
  intros V T P G HG HC b w t xs Hb Hc.
  destruct (running_rep V T P G b w t xs HG HC Hb Hc) as (d & l & -> & HR & HO).
  pose proof (rep_sized _ _ _ _ HR) as Hz.
  unfold vd_into_vec, vc_into_vec. rewrite (vc_check_rep G _ _ _ _ _ HR), N.eqb_refl. cbn [vc_data].
  rewrite (into_vec_unchecked_rep P G HG _ _ _ HR). cbn [obind].
  assert (HE : vec_elems G t (SVec (vv_blk d) (lenN xs) (vv_cap d) (encs G t xs)) = Ret xs).
  { unfold vec_elems. cbn [v_len v_bytes]. now rewrite read_vals_encs' by exact Hz. }
  eexists. csplit; [reflexivity|exact HE|].
  unfold vec_drop. rewrite HE, drop_vals_panicking.
  pose proof HO as HO0. rewrite (rep_own G HG t d xs HR) in HO.
  destruct (v_drop_ok (t_size (G t)) (t_align (G t)) (SVec (vv_blk d) (lenN xs) (vv_cap d) (encs G t xs))
              (set_tr (w_trace w ++ drops G t xs) w) l (so_ptr _ _ _ (typed_ok G t d xs HR)))
    as (w' & E & HO' & Ht).
  { apply Owns_set_tr. exact HO. }
  assert (Hgo : events w (drops G t xs) w' /\ freed w (buf_block (VecCopy d (build_vtable (V := V) t))) w').
  { split; [unfold events; now rewrite Ht, set_tr_trace|].
    rewrite buf_block_own. cbn [vc_data]. exact (owns_freed _ _ _ _ HO0 HO'). }
  destruct (panicking G t (w_trace w) xs) as [|? [|? ?]].
  - rewrite E. exists w'. split; [reflexivity|]. intros _. exact Hgo.
  - rewrite E. cbn [unwind]. exists w'. split; [reflexivity|]. intros _. exact Hgo.
  - eexists. split; [reflexivity|]. unfold lenN. cbn [List.length]. lia.
Qed.

Lemma drop_val_loud G t x w :
  drop_val G t x w =
    (if drop_panics G t (w_trace w) x then Panic PUser else Ret tt,
     set_tr (w_trace w ++ drops G t [x]) w).
Proof.
  unfold drop_val, drops, drop_panics. destruct (t_copy (G t)); cbn [negb andb map].
  - now rewrite app_nil_r, set_tr_same.
  - reflexivity.
Qed.

Lemma vl_drop_loud (V : Type) (T : FullTable V) (G : tenv) (v : value V) t x w l :
  wf_tenv G -> VRep G v t x -> Owns w (vl_own v ++ l) ->
  exists w', vl_drop G v w = (if drop_panics G t (w_trace w) x then Panic PUser else Ret tt, w') /\
    w_trace w' = w_trace w ++ drops G t [x] /\
    freed w (if drop_panics G t (w_trace w) x then [] else val_blocks v) w'.
Proof.
  intros HG H HO0. pose proof HO0 as HO. rewrite (vl_own_rep G v t x H), <- app_assoc in HO. unfold vl_drop.
  rewrite (vp_table _ _ _ _ H), law_drop, (vp_bytes _ _ _ _ H).
  unfold call_drop. rewrite from_bytes_enc by apply (vp_val _ _ _ _ H). rewrite drop_val_loud.
  destruct (drop_panics G t (w_trace w) x).
  { eexists. csplit; [reflexivity|apply set_tr_trace|]. unfold freed. reflexivity. }
  rewrite enc_length, (vp_align _ _ _ _ H).
  destruct (drop_as_aligned_own G HG (vl_store v) t (set_tr (w_trace w ++ drops G t [x]) w)
              (tab_own (V := V) (vl_tblk v) ++ l)) as (w1 & -> & HO1 & Ht1).
  { pose proof (vp_store _ _ _ _ H). destruct (vl_store v); auto. }
  { apply Owns_set_tr. exact HO. }
  destruct (table_free_own (V := V) (vl_tblk v) w1 l (vp_tblk _ _ _ _ H) HO1) as (w2 & -> & HO2 & Ht2).
  exists w2. csplit; [reflexivity|rewrite Ht2, Ht1; reflexivity|].
  unfold val_blocks. rewrite obj_blocks_own. exact (owns_freed _ _ _ _ HO0 HO2).
Qed.

(** Dropping an owned value whose destructor panics leaks its boxes. *)
Lemma c30_value_drop_fact :
  forall (V : Type) (T : FullTable V) (P : profile) (G : tenv), wf_tenv G -> clones_ok G ->
  forall (v : value V) w t x,
  running_val P G v w -> value_is G v t x ->
  exists w', vl_drop G v w = (if drop_panics G t (w_trace w) x then Panic PUser else Ret tt, w') /\
    events w (drops G t [x]) w' /\
    freed w (if drop_panics G t (w_trace w) x then [] else val_blocks v) w'.
Proof.
  intros V T P G HG HC v w t x (prog & k & Hty & Hin & HA & Hg & ->) Hv.
  destruct (drun_l P G HG HC prog d_init [] (dinv_init (V := V) G) Hty Hin)
    as [[HA' _]|(leak & lost & again & HI & _)]; [contradiction|].
  pose proof (val_is G _ _ k v t x HI Hg Hv) as HV.
  destruct (dinv_out G _ _ k _ HI Hg) as (rb & rv & HO & _). rewrite obj_blocks_own in HO.
  exact (vl_drop_loud V T G v t x _ _ HG HV HO).
Qed.

(** Assigning over an element whose destructor panics: the new value is in place, the boxes of the
    given value leak. *)
Lemma c30_assign_element_fact :
  forall (V : Type) (T : FullTable V) (P : profile) (G : tenv), wf_tenv G -> clones_ok G ->
  forall (b : vecdyn V) (v : value V) w t xs x i old,
  running_vec_val P G b v w -> contents G b t xs -> value_is G v t x -> nthN xs i = Some old ->
  exists b' w',
    vd_assign P G i v b w = (if drop_panics G t (w_trace w) old then Panic PUser else Ret tt, b', w') /\
    contents G b' t (list_set xs (N.to_nat i) x) /\ events w (drops G t [old]) w' /\
    freed w (if drop_panics G t (w_trace w) old then [] else val_blocks v) w'.
Proof.
  intros V T P G HG HC b v w t xs x i old (prog & h & k & Hty & Hin & HA & Hg & Hg' & ->) Hc Hv Hi.
  destruct (drun_l P G HG HC prog d_init [] (dinv_init (V := V) G) Hty Hin)
    as [[HA' _]|(leak & lost & again & HI & _)]; [contradiction|].
  assert (h <> k) as Hne by congruence.
  pose proof (val_is G _ _ k v t x HI Hg' Hv) as HV.
  destruct (vec_contents G HG _ _ h b t xs HI Hg Hc) as (d & -> & HR).
  destruct (dinv_out2 G _ _ h k _ _ HI Hg Hg' Hne) as (rb & rv & HO & _).
  cbn [d_world] in *. set (w := d_world (snd (drun P G prog d_init))) in *. clearbody w.
  change (obj_blocks (OVec _)) with (buf_block (VecCopy d (build_vtable (V := V) t))) in HO.
  rewrite buf_block_own, obj_blocks_own in HO. cbn [vc_data] in HO. apply Owns_swap in HO.
  pose proof (rep_sized _ _ _ _ HR) as Hz.
  assert (Li : i < lenN xs) by (eapply nthN_some; eassumption).
  unfold vd_assign, vd_with_mut. rewrite (vd_get_mut_rep P G HG t d _ xs i old HR Hi). cbn [vc_data vc_vtable].
  unfold vm_assign.
  destruct (vm_swap_ok G _ t old (vl_as_mut v) t x (mut_elem (V := V) G t old Hz) (mut_value G _ _ _ HV))
    as (m1 & m2 & -> & H1 & H2).
  fold (vl_with_bytes v (vm_bytes m2)). rewrite N.eqb_refl in *. rewrite H2.
  destruct (vl_drop_loud V T G (vl_with_bytes v (enc G t old)) t old w (vv_own d ++ rb ++ leak ++ []) HG
              (vl_with_bytes_rep G v t x old HV (fun E => False_ind _ (Hz E)))) as (w' & E & Ht & Hf).
  { rewrite (vl_with_bytes_own G v t x old HV). exact HO. }
  rewrite E. do 2 eexists. csplit; [reflexivity| |exact Ht|].
  - rewrite H1, (splice_one_with_vals G t d xs i x HR Li). apply rep_contents.
    eapply with_vals_rep; try eassumption. apply lenN_list_set.
  - revert Hf. unfold val_blocks. rewrite !obj_blocks_own, (vl_with_bytes_own G v t x old HV). auto.
Qed.

(** Cloning over an element whose destructor panics: the clone is in place. *)
Lemma c30_clone_from_element_fact :
  forall (V : Type) (T : FullTable V) (P : profile) (G : tenv), wf_tenv G -> clones_ok G ->
  forall (b : vecdyn V) w t xs i old y c,
  running_vec P G b w -> contents G b t xs -> nthN xs i = Some old ->
  t_clone (G t) (w_trace w) y = Some c ->
  exists b' w',
    vd_clone_from_other P G i (vr_new G t y) b w =
      (if drop_panics G t (w_trace w ++ [EvClone t y c]) old then Panic PUser else Ret (inl tt), b', w') /\
    contents G b' t (list_set xs (N.to_nat i) c) /\
    events w (EvClone t y c :: drops G t [old]) w' /\ w_live w' = w_live w.
Proof.
  intros V T P G HG HC b w t xs i old y c Hb Hc Hi Hcl.
  destruct (running_rep V T P G b w t xs HG HC Hb Hc) as (d & l & -> & HR & HO).
  pose proof (rep_sized _ _ _ _ HR) as Hz.
  assert (Li : i < lenN xs) by (eapply nthN_some; eassumption).
  unfold vd_clone_from_other, vd_with_mut. rewrite (vd_get_mut_rep P G HG t d _ xs i old HR Hi).
  cbn [vc_data vc_vtable]. unfold vm_clone_from_other. cbn [vm_type_id vr_type_id vr_new vm_vtable vt_as_ref vm_bytes vr_bytes].
  rewrite N.eqb_refl, law_clone_from. unfold call_clone_from.
  rewrite !from_bytes_enc by (intros E; now destruct (Hz E)).
  unfold clone_val. rewrite Hcl. unfold assign_val. rewrite drop_val_loud. cbn [emit w_trace].
  do 2 eexists. csplit.
  - destruct (drop_panics _ _ _ _); reflexivity.
  - cbn [vm_with_bytes vm_bytes]. rewrite (splice_one_with_vals G t d xs i c HR Li). apply rep_contents.
    eapply with_vals_rep; try eassumption. apply lenN_list_set.
  - unfold events. rewrite set_tr_trace. now rewrite <- app_assoc.
  - reflexivity.
Qed.

Lemma clone_from_loud G t src xs w ys ok tr :
  loud_replace G t src xs (w_trace w) = (ys, ok, tr) ->
  clone_from_vals G t xs src w = (if ok then Ret tt else Panic PUser, ys, set_tr tr w) /\ lenN ys = lenN xs.
Proof.
  revert src w ys ok tr. induction xs as [|old xs IH]; intros src w ys ok tr H; destruct src as [|x src];
    cbn [loud_replace clone_from_vals] in *; try (injection H as <- <- <-; now rewrite set_tr_same).
  unfold clone_val. destruct (t_clone (G t) (w_trace w) x) as [c|].
  2:{ injection H as <- <- <-. now rewrite set_tr_same. }
  unfold assign_val. rewrite drop_val_loud. cbn [emit w_trace].
  destruct (drop_panics G t (w_trace w ++ [EvClone t x c]) old).
  - injection H as <- <- <-. split; [|reflexivity]. now rewrite <- app_assoc.
  - destruct (loud_replace G t src xs _) as [[ys' ok'] tr'] eqn:E. injection H as <- <- <-.
    destruct (IH src (set_tr ((w_trace w ++ [EvClone t x c]) ++ drops G t [old]) w) ys' ok' tr') as [E' L].
    { rewrite set_tr_trace, <- app_assoc. exact E. }
    split; [|now rewrite !lenN_cons, L].
    rewrite set_tr_set in E'. change (emit (EvClone t x c) w) with (set_tr (w_trace w ++ [EvClone t x c]) w).
    rewrite set_tr_set, E'. reflexivity.
Qed.

Lemma fill_is_clone_from G t x xs w :
  fill_vals G t x xs w = clone_from_vals G t xs (repeat x (List.length xs)) w.
Proof.
  revert w. induction xs as [|old xs IH]; intros w; [reflexivity|].
  cbn [fill_vals clone_from_vals repeat List.length].
  destruct (clone_val G t x w) as [[c| | |] w1]; try reflexivity.
  destruct (assign_val G t old w1) as [[[]| | |] w2]; try reflexivity. now rewrite IH.
Qed.

(** [fill] over elements whose destructors panic. *)
Lemma c30_fill_fact :
  forall (V : Type) (T : FullTable V) (P : profile) (G : tenv), wf_tenv G -> clones_ok G ->
  forall (b : vecdyn V) w t xs x ys ok tr,
  running_vec P G b w -> contents G b t xs ->
  loud_replace G t (repeat x (List.length xs)) xs (w_trace w) = (ys, ok, tr) ->
  exists b' w',
    vd_fill G t x b w =
      (match ok, drop_panics G t tr x with
       | true, false => Ret true
       | true, true | false, false => Panic PUser
       | false, true => Abort
       end, b', w') /\
    contents G b' t ys /\ w_trace w' = tr ++ drops G t [x] /\ w_live w' = w_live w.
Proof.
  intros V T P G HG HC b w t xs x ys ok tr Hb Hc Hs.
  destruct (running_rep V T P G b w t xs HG HC Hb Hc) as (d & l & -> & HR & HO).
  destruct (clone_from_loud G t _ xs w ys ok tr Hs) as [E L]. rewrite <- fill_is_clone_from in E.
  unfold vd_fill. rewrite (as_slice_as_rep G _ _ _ _ _ HR). unfold typed. rewrite N.eqb_refl, E.
  cbn [vc_data vc_vtable].
  assert (HC' : contents G (VecCopy (vv_splice 0 (encs G t ys) d) (build_vtable (V := V) t)) t ys).
  { apply rep_contents. rewrite (splice_all_with_vals G t d xs ys HR) by exact L.
    now apply (with_vals_rep G t d xs ys HR). }
  destruct ok; cbn [obind owning]; rewrite drop_val_loud, set_tr_trace;
    destruct (drop_panics G t tr x); cbn [obind unwind]; do 2 eexists;
    (csplit; [reflexivity|exact HC'|apply set_tr_trace|reflexivity]).
Qed.

(** [SliceMut::clone_from_slice] over elements whose destructors panic. *)
Lemma c30_clone_from_slice_fact :
  forall (V : Type) (P : profile) (G : tenv), wf_tenv G ->
  forall t xs (vt : V) src ys ok tr w,
  slice_ok G t xs -> lenN src = lenN xs -> loud_replace G t src xs (w_trace w) = (ys, ok, tr) ->
  exists w', dsm_clone_from_slice P G t src (sl_from_slice G t xs vt) w =
             (if ok then Ret true else Panic PUser, sl_from_slice G t ys vt, w') /\
    w_trace w' = tr /\ w_live w' = w_live w.
Proof.
  intros V P G HG t xs vt src ys ok tr w Hok Hl Es. pose proof (slice_srep G t xs vt Hok) as HS.
  unfold dsm_clone_from_slice. rewrite (sl_as_slice_rep P G HG t _ xs t HS). unfold typed. rewrite N.eqb_refl.
  symmetry in Hl. apply N.eqb_eq in Hl as ->. destruct (clone_from_loud G t _ _ _ _ _ _ Es) as [-> _].
  eexists. csplit; [|apply set_tr_trace|reflexivity]. destruct ok; reflexivity.
Qed.
