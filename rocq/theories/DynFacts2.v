(** * DynFacts2: proofs of the property theorems about [VecDyn], continued. *)

From Verif Require Export DynFacts.
From Verif Require Import SliceFacts.
From Verif Require Import DynReach.

(** ** C32: push of a boxed value *)

Lemma c32_push_partial_fact :
  forall (V : Type) (T : FullTable V) (P : profile) (G : tenv), types_ok G ->
  forall (b : vecdyn V) (v : value V) bx w t xs x,
  live_vec_val P G b v w -> contents G b t xs -> value_is G v t x -> vl_store v = Boxed bx ->
  t_size (G t) = 1 -> t_align (G t) = 1 -> room G t (vc_capacity b) (lenN xs + 1) ->
  exists b' w', vd_push P G v b w = (Ret true, b', w') /\ contents G b' t (xs ++ [x]) /\
                vd_vtable b' = vd_vtable b /\ events w [] w' /\
                Permutation (buf_block b ++ val_blocks v ++ w_live w') (buf_block b' ++ w_live w).
Proof.
  intros V T P G [HG HC HQ] b v bx w t xs x Hl Hc Hv Hbx Hs Ha Hroom.
  destruct (live_vec_val_rep P G HG HC HQ b v w t xs t x Hl Hc Hv) as (d & l & -> & HR & HV & HO).
  rewrite obj_blocks_own in HO.
  pose proof (push_loc P G HG HQ t d xs v t x bx w l HR HV Hbx HO (fun _ => Ha)) as HP.
  rewrite N.eqb_refl in HP.
  inversion HP as [a ys d' w' Hsp HR' HO' HB HE|p d' w' left leak lost _ _ _ _ HE].
  - injection Hsp as <- <- Htr. do 2 eexists.
    csplit; [reflexivity|now apply rep_contents|reflexivity| |].
    + unfold events. now rewrite app_nil_r, Htr.
    + rewrite !buf_block_own. cbn [vc_data]. unfold val_blocks. rewrite obj_blocks_own.
      destruct HO as [_ HO]. destruct HO' as [_ HO']. rewrite HO, HO'.
      rewrite (Permutation_app_comm (vv_own d') l) at 1. rewrite !app_assoc.
      rewrite (Permutation_app_comm _ (vv_own d')), !app_assoc. reflexivity.
  - exfalso. clear HP. symmetry in HE. unfold vc_capacity in *. cbn [vc_data] in *.
    unfold vd_push, vd_element_type_id, vc_element_type_id in HE. cbn [vc_data] in HE.
    rewrite (rep_type G _ _ _ HR), (vp_type _ _ _ _ HV), N.eqb_refl in HE.
    apply Owns_swap in HO. rewrite (vl_own_rep G _ _ _ HV), Hbx in HO. cbn [store_own] in HO.
    rewrite <- app_assoc in HO. apply Owns_swap in HO.
    destruct (table_free_own (V := V) (vl_tblk v) w _ (vp_tblk _ _ _ _ HV) HO) as (w1 & E1 & HO1 & Ht1).
    rewrite E1 in HE.
    apply Owns_swap in HO1. rewrite Hbx, (vp_bytes _ _ _ _ HV) in HE. unfold on_data in HE.
    cbn [vc_data vc_vtable] in HE. rewrite Ha in HO1.
    assert (Hsa : t_size (G t) = t_align (G t)) by lia.
    assert (Hpt : ptr_ok bx (lenN (enc G t x))).
    { rewrite enc_length. pose proof (vp_store _ _ _ _ HV) as Hst. now rewrite Hbx in Hst. }
    pose proof (vv_push_one_chunk P G HG t d xs x w1 _ HR HO1 Hsa) as HX. revert HE.
    assert (Hlen : lenN (xs ++ [x]) = lenN xs + 1) by (rewrite lenN_app; reflexivity).
    destruct HX as [d2 w2 HR2 _ _ HO2 Ht2 _|w2 Hlt Hmax _ _|w2 i Hodd _ _].
    + unfold byte_box_drop. cbn [bb_blk bb_bytes].
      apply Owns_swap in HO2. rewrite <- (enc_length G t x) in HO2.
      destruct (dealloc_owns _ _ _ _ _ Hpt HO2) as (w3 & -> & _). cbn [obind]. discriminate.
    + destruct Hroom as [?|Hg]; [lia|]. unfold growth_fits in Hg. rewrite Hlen in *. lia.
    + clear -Hodd Hs. unfold bad_growth in Hodd. lia.
Qed.

Lemma c32_other_type_fact :
  forall (V : Type) (T : FullTable V) (P : profile) (G : tenv), types_ok G ->
  forall (b : vecdyn V) (v : value V) w t xs t' x,
  live_vec_val P G b v w -> contents G b t xs -> value_is G v t' x -> t' <> t ->
  exists w', vd_push P G v b w = (Ret false, b, w') /\ events w (drops G t' [x]) w' /\
             freed w (val_blocks v) w'.
Proof.
  intros V T P G [HG HC HQ] b v w t xs t' x Hl Hc Hv Hne.
  destruct (live_vec_val_rep P G HG HC HQ b v w t xs t' x Hl Hc Hv) as (d & l & -> & HR & HV & HO).
  unfold vd_push, vd_element_type_id, vc_element_type_id. cbn [vc_data].
  rewrite (rep_type G _ _ _ HR), (vp_type _ _ _ _ HV). apply N.eqb_neq in Hne. rewrite Hne.
  rewrite obj_blocks_own in HO. apply Owns_swap in HO.
  destruct (vl_drop_rep G HG HQ v t' x w _ HV HO) as (w' & -> & HO' & Ht). cbn [obind].
  exists w'. csplit; [reflexivity|exact Ht|]. unfold val_blocks. rewrite obj_blocks_own.
  exact (owns_freed _ _ _ _ HO HO').
Qed.

(** Freeing a block with another alignment. *)
Lemma dealloc_wrong_align i sz al al' w l :
  Owns w ((i, (sz, al)) :: l) -> sz <> 0 -> al' <> al -> dealloc (Some i) sz al' w = (UB UbDealloc, w).
Proof.
  intros HO Hz Hne. unfold dealloc. apply N.eqb_neq in Hz. rewrite Hz.
  destruct (remove_block (i, (sz, al')) (w_live w)) as [l'|] eqn:E; [|reflexivity]. exfalso.
  apply remove_block_some in E. pose proof HO as [[Hnd _] HP].
  assert (Hin : In (i, (sz, al)) ((i, (sz, al')) :: l')).
  { rewrite <- E, HP. now left. }
  destruct Hin as [Heq|Hin]; [congruence|].
  rewrite E in Hnd. cbn [map fst] in Hnd. inversion Hnd as [|a b Hni _]. apply Hni.
  apply in_map_iff. exists (i, (sz, al)). auto.
Qed.

Lemma c32_wrong_layout_fact :
  forall (V : Type) (T : FullTable V) (P : profile) (G : tenv), types_ok G ->
  forall (b : vecdyn V) (v : value V) bx w t xs x,
  live_vec_val P G b v w -> contents G b t xs -> value_is G v t x -> vl_store v = Boxed bx ->
  t_align (G t) <> 1 ->
  exists u b' w', vd_push P G v b w = (UB u, b', w').
Proof.
  intros V T P G [HG HC HQ] b v bx w t xs x Hl Hc Hv Hbx Ha.
  destruct (live_vec_val_rep P G HG HC HQ b v w t xs t x Hl Hc Hv) as (d & l & -> & HR & HV & HO).
  rewrite obj_blocks_own in HO. pose proof (rep_sized _ _ _ _ HR) as Hz.
  unfold vd_push, vd_element_type_id, vc_element_type_id. cbn [vc_data].
  rewrite (rep_type G _ _ _ HR), (vp_type _ _ _ _ HV), N.eqb_refl.
  apply Owns_swap in HO. rewrite (vl_own_rep G _ _ _ HV), Hbx in HO. cbn [store_own] in HO.
  rewrite <- app_assoc in HO. apply Owns_swap in HO.
  destruct (table_free_own (V := V) (vl_tblk v) w _ (vp_tblk _ _ _ _ HV) HO) as (w1 & -> & HO1 & Ht1).
  apply Owns_swap in HO1. rewrite Hbx, (vp_bytes _ _ _ _ HV). unfold on_data. cbn [vc_data vc_vtable].
  pose proof (vp_store _ _ _ _ HV) as Hpt. rewrite Hbx in Hpt.
  destruct bx as [i|]; [|now destruct (Hpt Hz)].
  assert (Hfree : forall w2 k, Owns w2 (k ++ owned (Some i) (t_size (G t)) (t_align (G t)) ++ l) ->
    byte_box_drop (ByteBox (Some i) (enc G t x)) w2 = (UB UbDealloc, w2)).
  { intros w2 k HO2. unfold byte_box_drop. cbn [bb_blk bb_bytes]. rewrite enc_length.
    apply Owns_swap in HO2. unfold owned in HO2. rewrite (proj2 (N.eqb_neq _ _) Hz) in HO2.
    apply (dealloc_wrong_align i _ (t_align (G t)) 1 w2 (k ++ l)); [exact HO2|exact Hz|congruence]. }
  destruct (N.eq_dec (t_size (G t)) (t_align (G t))) as [Hsa|Hsa].
  - pose proof (vv_push_one_chunk P G HG t d xs x w1 _ HR HO1 Hsa) as HX.
    destruct HX as [d' w' HR' _ _ HO' Ht' _|w' _ _ HO' Ht'|w' j Hodd HO' Ht'].
    + rewrite (Hfree w' (vv_own d') HO'). cbn [obind]. eauto.
    + rewrite (Hfree w' [] HO'). cbn [unwind]. eauto.
    + rewrite (Hfree w' [(j, (8, 1))] HO'). cbn [unwind]. eauto.
  - assert (Hlt : t_align (G t) < t_size (G t)).
    { pose proof (chunks_size G HG t). pose proof (chunks_pos G HG t Hz). nia. }
    destruct (vv_push_many_chunks P G HG t d xs (enc G t x) w1 _ HR HO1 Hlt (enc_length G t x))
      as (w' & leak & Hcase & HO' & Ht' & _).
    assert (HX : exists p, vv_push P (enc G t x) d w1 = (Panic p, vv_default, w')).
    { destruct Hcase as [E|[E _]]; eauto. }
    destruct HX as [p ->]. rewrite (Hfree w' leak HO'). cbn [unwind]. eauto.
Qed.

Lemma c32_push_never_works_fact :
  forall (V : Type) (T : FullTable V) (P : profile) (G : tenv), types_ok G ->
  forall (b : vecdyn V) (v : value V) bx w t xs x,
  live_vec_val P G b v w -> contents G b t xs -> value_is G v t x -> vl_store v = Boxed bx ->
  t_align (G t) = 1 -> t_size (G t) <> 1 ->
  exists p b' w', vd_push P G v b w = (Panic p, b', w') /\ lost_vec G b' /\
                  dropped G (w_trace w') = dropped G (w_trace w).
Proof.
  intros V T P G [HG HC HQ] b v bx w t xs x Hl Hc Hv Hbx Ha Hs.
  destruct (live_vec_val_rep P G HG HC HQ b v w t xs t x Hl Hc Hv) as (d & l & -> & HR & HV & HO).
  rewrite obj_blocks_own in HO. pose proof (rep_sized _ _ _ _ HR) as Hz.
  unfold vd_push, vd_element_type_id, vc_element_type_id. cbn [vc_data].
  rewrite (rep_type G _ _ _ HR), (vp_type _ _ _ _ HV), N.eqb_refl.
  apply Owns_swap in HO. rewrite (vl_own_rep G _ _ _ HV), Hbx in HO. cbn [store_own] in HO.
  rewrite <- app_assoc in HO. apply Owns_swap in HO.
  destruct (table_free_own (V := V) (vl_tblk v) w _ (vp_tblk _ _ _ _ HV) HO) as (w1 & -> & HO1 & Ht1).
  apply Owns_swap in HO1. rewrite Hbx, (vp_bytes _ _ _ _ HV). unfold on_data. cbn [vc_data vc_vtable].
  assert (Hpt : ptr_ok bx (lenN (enc G t x))).
  { rewrite enc_length. pose proof (vp_store _ _ _ _ HV) as Hst. now rewrite Hbx in Hst. }
  assert (Hlt : t_align (G t) < t_size (G t)) by lia.
  rewrite Ha in HO1.
  destruct (vv_push_many_chunks P G HG t d xs (enc G t x) w1 _ HR HO1 Hlt (enc_length G t x))
    as (w' & leak & Hcase & HO' & Ht' & _).
  assert (HX : exists p, vv_push P (enc G t x) d w1 = (Panic p, vv_default, w')).
  { destruct Hcase as [E|[E _]]; eauto. }
  destruct HX as [p ->]. unfold byte_box_drop. cbn [bb_blk bb_bytes].
  apply Owns_swap in HO'. rewrite <- (enc_length G t x) in HO'.
  destruct (dealloc_owns _ _ _ _ _ Hpt HO') as (w3 & -> & _ & Ht3). cbn [unwind].
  do 3 eexists. csplit; [reflexivity|apply (pois_lost G HG)|]. now rewrite Ht3, Ht', Ht1.
Qed.

(** ** C34: into_vec *)

Lemma c34_into_vec_fact :
  forall (V : Type) (T : FullTable V) (P : profile) (G : tenv), types_ok G ->
  forall (b : vecdyn V) w t xs,
  live_vec P G b w -> contents G b t xs ->
  exists vec, vd_into_vec P G t b w = (Ret (Some vec), w) /\ vec_elems G t vec = Ret xs /\
    vec_block G t vec = buf_block b /\
    exists w', vec_drop G t vec w = (Ret tt, w') /\ events w (drops G t xs) w' /\
               freed w (buf_block b) w'.
Proof.
  intros V T P G [HG HC HQ] b w t xs Hb Hc.
  destruct (live_vec_rep P G HG HC HQ b w t xs Hb Hc) as (d & l & -> & HR & HO).
  pose proof (rep_sized _ _ _ _ HR) as Hz.
  unfold vd_into_vec, vc_into_vec. rewrite (vc_check_rep G _ _ _ _ _ HR), N.eqb_refl. cbn [vc_data].
  rewrite (into_vec_unchecked_rep P G HG _ _ _ HR). cbn [obind].
  eexists. csplit; [reflexivity| | |].
  - unfold vec_elems. cbn [v_len v_bytes]. now rewrite read_vals_encs' by exact Hz.
  - rewrite buf_block_own. cbn [vc_data]. rewrite (rep_own G HG t d xs HR). reflexivity.
  - pose proof HO as HO0. rewrite (rep_own G HG t d xs HR) in HO.
    destruct (vec_drop_q G HQ t (vv_blk d) (vv_cap d) xs w l) as (w' & E & HO' & Ht).
    { now apply Forall_sized. } { exact (so_ptr _ _ _ (typed_ok G t d xs HR)). } { exact HO. }
    exists w'. csplit; [exact E|exact Ht|]. rewrite buf_block_own. exact (owns_freed _ _ _ _ HO0 HO').
Qed.

(** With another type the elements are lost: none is dropped, but the block is freed. *)
Lemma c34_other_type_loses_fact :
  forall (V : Type) (T : FullTable V) (P : profile) (G : tenv), types_ok G ->
  forall (b : vecdyn V) w t xs t',
  live_vec P G b w -> contents G b t xs -> t' <> t ->
  exists w', vd_into_vec P G t' b w = (Ret None, w') /\ events w [] w' /\ freed w (buf_block b) w'.
Proof.
  intros V T P G [HG HC HQ] b w t xs t' Hb Hc Hne.
  destruct (live_vec_rep P G HG HC HQ b w t xs Hb Hc) as (d & l & -> & HR & HO).
  destruct (into_vec_other P G HG t t' d (build_vtable (V := V) t) xs w l HR Hne HO) as (w' & E & HO' & Ht).
  exists w'. csplit; [exact E|unfold events; now rewrite app_nil_r|].
  rewrite buf_block_own. exact (owns_freed _ _ _ _ HO HO').
Qed.

(** ** C35: equality *)

Lemma nthN_nil {A} i : nthN (@nil A) i = None.
Proof. unfold nthN. now destruct (N.to_nat i). Qed.

Lemma zip_eq_spec G t t' xs ys :
  zip_eq G t t' xs ys = true <->
  forall i x y, nthN xs i = Some x -> nthN ys i = Some y -> t = t' /\ t_eq (G t) x y = true.
Proof.
  revert ys. induction xs as [|x xs IH]; intros ys.
  - split; [|reflexivity]. intros _ i x y Hx. rewrite nthN_nil in Hx. discriminate.
  - destruct ys as [|y ys].
    + split; [|reflexivity]. intros _ i x' y' _ Hy. rewrite nthN_nil in Hy. discriminate.
    + specialize (IH ys). cbn [zip_eq combine forallb fst snd].
      rewrite !andb_true_iff, N.eqb_eq. split.
      * intros (-> & Hxy & Hr) i x' y' Hi Hj. split; [reflexivity|].
        destruct (N.eq_dec i 0) as [->|Hi0].
        -- unfold nthN in Hi, Hj. cbn in Hi, Hj. congruence.
        -- destruct xs as [|x1 xs]; [unfold nthN in Hi; destruct (N.to_nat i) as [|n] eqn:En; [lia|];
             cbn in Hi; destruct n; discriminate|].
           destruct ys as [|y1 ys]; [unfold nthN in Hj; destruct (N.to_nat i) as [|n] eqn:En; [lia|];
             cbn in Hj; destruct n; discriminate|].
           assert (HZ : zip_eq G t' t' (x1 :: xs) (y1 :: ys) = true).
           { cbn [zip_eq]. now rewrite N.eqb_refl, Hr. }
           apply (proj1 IH HZ (i - 1)); unfold nthN in *;
             replace (N.to_nat i) with (S (N.to_nat (i - 1))) in * by lia; assumption.
      * intros H. destruct (H 0 x y eq_refl eq_refl) as [-> Hxy]. csplit; [reflexivity|exact Hxy|].
        assert (HZ : zip_eq G t' t' xs ys = true).
        { apply IH. intros i x' y' Hi Hj. apply (H (i + 1)); unfold nthN in *;
          replace (N.to_nat (i + 1)) with (S (N.to_nat i)) by lia; assumption. }
        destruct xs as [|x1 xs]; [reflexivity|]. destruct ys as [|y1 ys]; [reflexivity|].
        cbn [zip_eq] in HZ. apply andb_true_iff in HZ. apply HZ.
Qed.

Lemma zip_eq_Forall2 G t t' xs ys :
  lenN xs = lenN ys ->
  (zip_eq G t t' xs ys = true <-> Forall2 (fun x y => t = t' /\ t_eq (G t) x y = true) xs ys).
Proof.
  intros Hl. rewrite zip_eq_spec. split.
  - revert ys Hl. induction xs as [|x xs IH]; intros ys Hl H; destruct ys as [|y ys];
      try (unfold lenN in Hl; cbn in Hl; lia); constructor.
    + apply (H 0); reflexivity.
    + apply IH; [unfold lenN in *; cbn in Hl; lia|]. intros i x' y' Hi Hj.
      apply (H (i + 1)); unfold nthN in *; replace (N.to_nat (i + 1)) with (S (N.to_nat i)) by lia; assumption.
  - intros HF. clear Hl. induction HF as [|x y xs ys Hxy HF IH]; intros i x' y' Hi Hj.
    + rewrite nthN_nil in Hi. discriminate.
    + destruct (N.eq_dec i 0) as [->|Hi0].
      * unfold nthN in Hi, Hj. cbn in Hi, Hj. injection Hi as <-. injection Hj as <-. exact Hxy.
      * apply (IH (i - 1)); unfold nthN in *;
          replace (N.to_nat i) with (S (N.to_nat (i - 1))) in * by lia; assumption.
Qed.

Lemma c35_common_prefix_fact :
  forall (V : Type) (T : FullTable V) (P : profile) (G : tenv), types_ok G ->
  forall (b b' : vecdyn V) w w' t xs t' ys,
  live_vec P G b w -> contents G b t xs -> live_vec P G b' w' -> contents G b' t' ys ->
  exists e, vd_eq P G b b' = Ret e /\
    (e = true <-> forall i x y, nthN xs i = Some x -> nthN ys i = Some y ->
                                t = t' /\ t_eq (G t) x y = true).
Proof.
  intros V T P G [HG HC HQ] b b' w w' t xs t' ys Hb Hc Hb' Hc'.
  destruct (live_vec_rep P G HG HC HQ b w t xs Hb Hc) as (d & l & -> & HR & _).
  destruct (live_vec_rep P G HG HC HQ b' w' t' ys Hb' Hc') as (d' & l' & -> & HR' & _).
  exists (zip_eq G t t' xs ys). split; [|apply zip_eq_spec].
  exact (eq_ok (V := V) P G HG t d xs t' d' ys HR HR').
Qed.

Lemma c35_eq_partial_fact :
  forall (V : Type) (T : FullTable V) (P : profile) (G : tenv), types_ok G ->
  forall (b b' : vecdyn V) w w' t xs t' ys,
  live_vec P G b w -> contents G b t xs -> live_vec P G b' w' -> contents G b' t' ys ->
  lenN xs = lenN ys ->
  exists e, vd_eq P G b b' = Ret e /\
    (e = true <-> Forall2 (fun x y => t = t' /\ t_eq (G t) x y = true) xs ys).
Proof.
  intros V T P G [HG HC HQ] b b' w w' t xs t' ys Hb Hc Hb' Hc' Hl.
  destruct (live_vec_rep P G HG HC HQ b w t xs Hb Hc) as (d & l & -> & HR & _).
  destruct (live_vec_rep P G HG HC HQ b' w' t' ys Hb' Hc') as (d' & l' & -> & HR' & _).
  exists (zip_eq G t t' xs ys). split; [|now apply zip_eq_Forall2].
  exact (eq_ok (V := V) P G HG t d xs t' d' ys HR HR').
Qed.

(** Slices: [Slice::from_slice], and those of a vector. *)
Lemma ds_iter_rep {V} (T : FullTable V) G t (s : slicecopy V) xs :
  wf_tenv G -> SRep G t s xs -> ds_iter s = Ret (map (dref G t (sl_vtable s)) xs).
Proof.
  intros HG H. unfold ds_iter. rewrite (srep_nb G HG _ _ _ H), (srep_data _ _ _ _ H).
  rewrite chunks_exact_encs by apply H. cbn [obind]. rewrite map_map, (srep_elem _ _ _ _ H). reflexivity.
Qed.

Lemma c35_slice_eq_partial_fact :
  forall (V : Type) (T : FullTable V) (G : tenv), types_ok G ->
  forall t xs t' ys,
  slice_ok G t xs -> slice_ok G t' ys -> lenN xs = lenN ys ->
  exists e, ds_eq G (sl_from_slice G t xs (build_vtable (V := V) t))
                    (sl_from_slice G t' ys (build_vtable t')) = Ret e /\
    (e = true <-> Forall2 (fun x y => t = t' /\ t_eq (G t) x y = true) xs ys).
Proof.
  intros V T G [HG HC HQ] t xs t' ys Hx Hy Hl.
  exists (zip_eq G t t' xs ys). split; [|now apply zip_eq_Forall2].
  unfold ds_eq. rewrite (ds_iter_rep T G t _ xs HG (slice_srep G t xs _ Hx)).
  rewrite (ds_iter_rep T G t' _ ys HG (slice_srep G t' ys _ Hy)). cbn [obind sl_vtable sl_from_slice].
  apply (all_eq_dref (V := V)). apply Hx.
Qed.

Lemma c35_slice_common_prefix_fact :
  forall (V : Type) (T : FullTable V) (G : tenv), types_ok G ->
  forall t xs t' ys,
  slice_ok G t xs -> slice_ok G t' ys ->
  exists e, ds_eq G (sl_from_slice G t xs (build_vtable (V := V) t))
                    (sl_from_slice G t' ys (build_vtable t')) = Ret e /\
    (e = true <-> forall i x y, nthN xs i = Some x -> nthN ys i = Some y ->
                                t = t' /\ t_eq (G t) x y = true).
Proof.
  intros V T G [HG HC HQ] t xs t' ys Hx Hy.
  exists (zip_eq G t t' xs ys). split; [|apply zip_eq_spec].
  unfold ds_eq. rewrite (ds_iter_rep T G t _ xs HG (slice_srep G t xs _ Hx)).
  rewrite (ds_iter_rep T G t' _ ys HG (slice_srep G t' ys _ Hy)). cbn [obind sl_vtable sl_from_slice].
  apply (all_eq_dref (V := V)). apply Hx.
Qed.

(** The slice of a whole vector is the slice of its contents. *)
Lemma vec_slice_fact :
  forall (V : Type) (T : FullTable V) (P : profile) (G : tenv), types_ok G ->
  forall (b : vecdyn V) w t xs,
  live_vec P G b w -> contents G b t xs ->
  slice_ok G t xs /\ vd_as_slice P b = Ret (sl_from_slice G t xs (build_vtable t)).
Proof.
  intros V T P G [HG HC HQ] b w t xs Hb Hc.
  destruct (live_vec_rep P G HG HC HQ b w t xs Hb Hc) as (d & l & -> & HR & _).
  destruct (vc_as_slice_rep P G HG t d (build_vtable (V := V) t) xs HR) as (s & E & HS & Hv & _).
  split; [split; [exact (srep_sized _ _ _ _ HS)|exact (srep_max _ _ _ _ HS)]|].
  unfold vd_as_slice. rewrite E. destruct s as [da el vt]. cbn [sl_vtable] in Hv. subst vt.
  pose proof (srep_elem _ _ _ _ HS) as He. pose proof (srep_data _ _ _ _ HS) as Hd. cbn in He, Hd.
  subst. reflexivity.
Qed.

(** Equality is an equivalence relation among vectors of equal lengths. *)
Lemma c35_equivalence_partial_fact :
  forall (V : Type) (T : FullTable V) (P : profile) (G : tenv), types_ok G ->
  forall t, (forall x, t_eq (G t) x x = true) ->
            (forall x y, t_eq (G t) x y = t_eq (G t) y x) ->
            (forall x y z, t_eq (G t) x y = true -> t_eq (G t) y z = true -> t_eq (G t) x z = true) ->
  forall (b1 b2 b3 : vecdyn V) w1 w2 w3 xs ys zs,
  live_vec P G b1 w1 -> contents G b1 t xs -> live_vec P G b2 w2 -> contents G b2 t ys ->
  live_vec P G b3 w3 -> contents G b3 t zs -> lenN xs = lenN ys -> lenN ys = lenN zs ->
  vd_eq P G b1 b1 = Ret true /\ vd_eq P G b1 b2 = vd_eq P G b2 b1 /\
  (vd_eq P G b1 b2 = Ret true -> vd_eq P G b2 b3 = Ret true -> vd_eq P G b1 b3 = Ret true).
Proof.
  intros V T P G HT t Hrefl Hsym Htrans b1 b2 b3 w1 w2 w3 xs ys zs H1 C1 H2 C2 H3 C3 L1 L2.
  pose proof (c35_eq_partial_fact V T P G HT b1 b1 w1 w1 t xs t xs H1 C1 H1 C1 eq_refl) as (e11 & E11 & P11).
  pose proof (c35_eq_partial_fact V T P G HT b1 b2 w1 w2 t xs t ys H1 C1 H2 C2 L1) as (e12 & E12 & P12).
  pose proof (c35_eq_partial_fact V T P G HT b2 b1 w2 w1 t ys t xs H2 C2 H1 C1 (eq_sym L1)) as (e21 & E21 & P21).
  pose proof (c35_eq_partial_fact V T P G HT b2 b3 w2 w3 t ys t zs H2 C2 H3 C3 L2) as (e23 & E23 & P23).
  pose proof (c35_eq_partial_fact V T P G HT b1 b3 w1 w3 t xs t zs H1 C1 H3 C3 (eq_trans L1 L2)) as (e13 & E13 & P13).
  csplit.
  - rewrite E11. f_equal. apply P11. clear -Hrefl. induction xs; constructor; auto.
  - rewrite E12, E21. f_equal. apply eq_true_iff_eq. rewrite P12, P21. clear -Hsym. split;
      (intros HF; induction HF as [|x y a c [_ Hxy] _ IH]; constructor; [split; [reflexivity|now rewrite Hsym]|exact IH]).
  - rewrite E12, E23, E13. intros [= ->] [= ->]. f_equal. apply P13.
    pose proof (proj1 P12 eq_refl) as F1. pose proof (proj1 P23 eq_refl) as F2. clear -F1 F2 Htrans.
    revert zs F2. induction F1 as [|x y a c [_ Hxy] _ IH]; intros zs F2; inversion F2 as [|y' z c' zs' [_ Hyz] F2']; subst;
      constructor; [split; [reflexivity|eauto]|auto].
Qed.

(** ** C36: hashing *)

Lemma c36_hash_fact :
  forall (V : Type) (T : FullTable V) (P : profile) (G : tenv), types_ok G ->
  forall (b : vecdyn V) w t xs,
  live_vec P G b w -> contents G b t xs ->
  vd_hash P G b = Ret (flat_map (t_hash (G t)) xs).
Proof.
  intros V T P G [HG HC HQ] b w t xs Hb Hc.
  destruct (live_vec_rep P G HG HC HQ b w t xs Hb Hc) as (d & l & -> & HR & _).
  unfold vd_hash. rewrite (vd_iter_rep P G HG t d (build_vtable (V := V) t) xs HR). cbn [obind].
  apply (hash_all_dref (V := V)). apply HR.
Qed.

Lemma c36_hash_eq_partial_fact :
  forall (V : Type) (T : FullTable V) (P : profile) (G : tenv), types_ok G ->
  forall (b b' : vecdyn V) w w' t xs t' ys,
  live_vec P G b w -> contents G b t xs -> live_vec P G b' w' -> contents G b' t' ys ->
  (forall x y, t_eq (G t) x y = true -> t_hash (G t) x = t_hash (G t) y) ->
  lenN xs = lenN ys -> vd_eq P G b b' = Ret true -> vd_hash P G b = vd_hash P G b'.
Proof.
  intros V T P G HT b b' w w' t xs t' ys H C H' C' Hh Hl HE.
  destruct (c35_eq_partial_fact V T P G HT b b' w w' t xs t' ys H C H' C' Hl) as (e & E & HF).
  rewrite HE in E. injection E as <-. apply proj1 in HF. specialize (HF eq_refl).
  rewrite (c36_hash_fact V T P G HT b w t xs H C), (c36_hash_fact V T P G HT b' w' t' ys H' C').
  f_equal. clear -HF Hh. induction HF as [|x y a c [-> Hxy] _ IH]; [reflexivity|].
  cbn [flat_map]. now rewrite (Hh _ _ Hxy), IH.
Qed.

Lemma c36_value_hash_fact :
  forall (V : Type) (T : FullTable V) (P : profile) (G : tenv), types_ok G ->
  forall (v v' : value V) w w' t x t' x',
  live_val P G v w -> value_is G v t x -> live_val P G v' w' -> value_is G v' t' x' ->
  (forall x y, t_eq (G t) x y = true -> t_hash (G t) x = t_hash (G t) y) ->
  vl_hash G v = Ret (t_hash (G t) x) /\
  (vl_eq G v v' = Ret true -> vl_hash G v = vl_hash G v').
Proof.
  intros V T P G [HG HC HQ] v v' w w' t x t' x' Hv Hi Hv' Hi' Hh.
  destruct (live_val_rep P G HG HC HQ v w t x Hv Hi) as [HV _].
  destruct (live_val_rep P G HG HC HQ v' w' t' x' Hv' Hi') as [HV' _].
  rewrite (vl_hash_rep G v t x HV), (vl_hash_rep G v' t' x' HV'), (vl_eq_rep G v t x v' t' x' HV HV').
  split; [reflexivity|]. intros [= HE]. apply andb_true_iff in HE as [Ht Hq]. apply N.eqb_eq in Ht as ->.
  now rewrite (Hh _ _ Hq).
Qed.

(** ** C37: Debug *)

Lemma c37_vec_fmt_fact :
  forall (V : Type) (T : FullTable V) (P : profile) (G : tenv), types_ok G ->
  forall (b : vecdyn V) w t xs,
  live_vec P G b w -> contents G b t xs -> vd_fmt P G b = Ret (list_fmt G t xs).
Proof.
  intros V T P G [HG HC HQ] b w t xs Hb Hc.
  destruct (live_vec_rep P G HG HC HQ b w t xs Hb Hc) as (d & l & -> & HR & _).
  unfold vd_fmt. rewrite (vd_iter_rep P G HG t d (build_vtable (V := V) t) xs HR). cbn [obind].
  rewrite (fmt_all_dref (V := V)) by apply HR. cbn [obind]. unfold debug_list, list_fmt.
  now rewrite join_concat.
Qed.

Lemma c37_slice_fmt_fact :
  forall (V : Type) (T : FullTable V) (G : tenv), types_ok G ->
  forall t xs, slice_ok G t xs ->
  ds_fmt G (sl_from_slice G t xs (build_vtable (V := V) t)) = Ret (list_fmt G t xs).
Proof.
  intros V T G [HG HC HQ] t xs Hx.
  unfold ds_fmt. rewrite (ds_iter_rep T G t _ xs HG (slice_srep G t xs _ Hx)). cbn [obind sl_vtable sl_from_slice].
  rewrite (fmt_all_dref (V := V)) by apply Hx. cbn [obind]. unfold debug_list, list_fmt.
  now rewrite join_concat.
Qed.

Lemma c37_value_fmt_fact :
  forall (V : Type) (T : FullTable V) (P : profile) (G : tenv), types_ok G ->
  forall (v : value V) w t x, live_val P G v w -> value_is G v t x -> vl_fmt G v = Ret (t_fmt (G t) x).
Proof.
  intros V T P G [HG HC HQ] v w t x Hv Hi.
  destruct (live_val_rep P G HG HC HQ v w t x Hv Hi) as [HV _]. now apply vl_fmt_rep.
Qed.
