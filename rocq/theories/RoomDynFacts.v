(** * RoomDynFacts: the calls that grow a [VecDyn] panic whenever it cannot grow, and what the
    panic costs. *)

From Verif Require Import DynFacts5 RoomFacts.

(** Nothing is cloned, the given value is dropped, the elements are neither kept nor dropped. *)
Lemma c38_resize_no_room_fact :
  forall (V : Type) (T : FullTable V) (P : profile) (G : tenv), types_ok G ->
  forall (b : vecdyn V) w t xs n x,
  live_vec P G b w -> contents G b t xs -> fits P n (t_size (G t)) ->
  ~ room G t (vc_capacity b) n \/ odd_growth G t (vc_capacity b) n ->
  exists p b' w', vd_resize P G t n x b w = (Panic p, b', w') /\ lost_vec G b' /\
                  w_trace w' = w_trace w ++ drops G t [x].
Proof.
  intros V T P G [HG HC HQ] b w t xs n x Hb Hc Hf Hbad.
  destruct (live_vec_rep P G HG HC HQ b w t xs Hb Hc) as (d & l & -> & HR & HO).
  unfold vc_capacity in *. cbn [vc_data] in *.
  pose proof (rep_cap _ _ _ _ HR) as Hcap.
  assert (Hlt : lenN xs < n).
  { destruct Hbad as [Hnr|(_ & _ & H1 & H2)]; [|lia].
    destruct (N.lt_ge_cases (lenN xs) n) as [?|Hge]; [assumption|].
    exfalso. apply Hnr. left. lia. }
  unfold vd_resize. rewrite (vc_check_rep G _ _ _ _ _ HR), N.eqb_refl.
  unfold vd_len, vc_len. cbn [vc_data]. rewrite (rep_len _ _ _ _ HR).
  rewrite (proj2 (N.leb_le _ _)) by lia.
  unfold vc_reserve, on_data. cbn [vc_data vc_vtable].
  assert (Hk : lenN xs + (n - lenN xs) = n) by lia.
  assert (Hgo : forall p w', w_trace w' = w_trace w ->
    exists q b' w2, owning G t x (Panic p, VecCopy vv_default (build_vtable (V := V) t), w') =
                    (Panic (A := bool) q, b', w2) /\
      lost_vec G b' /\ w_trace w2 = w_trace w ++ drops G t [x]).
  { intros p w' Ht. cbn [owning]. rewrite (drop_val_q G HQ). cbn [obind unwind]. do 3 eexists.
    csplit; [reflexivity|apply (pois_lost G HG)|]. now rewrite set_tr_trace, Ht. }
  destruct (N.le_gt_cases ((n - lenN xs) * chunks_of G t) usize_max) as [Hle|Hgt].
  - pose proof (vv_reserve_rep P G HG t d xs (n - lenN xs) w l HR HO Hle) as Hres. rewrite Hk in Hres.
    destruct Hres as [Hle'|d' w' Hlt' HR' Hn' Hcap' HO' Htr [Hgf Hno]|w' Hlt' Hmax HO' Htr|w' i Hb' HO' Htr].
    + exfalso. destruct Hbad as [Hnr|[_ [_ [H1 H2]]]]; [apply Hnr; now left|lia].
    + exfalso. destruct Hbad as [Hnr|Hodd]; [apply Hnr; now right|now apply Hno].
    + now apply Hgo.
    + now apply Hgo.
  - pose proof (chunks_le_size G HG t (n - lenN xs)) as Hcs.
    destruct Hf as [Hf|Hov]; [nia|].
    unfold vv_reserve. rewrite (dispatch_rep P G HG t d xs _ w HR).
    rewrite (rep_elem _ _ _ _ HR). change (e_size (elem_new G t)) with (chunks_of G t).
    unfold umul. rewrite (proj2 (N.leb_gt _ _) Hgt). rewrite Hov. cbn [with_val retype].
    destruct (v_drop_ok (t_align (G t)) (t_align (G t)) (carrier G t d) w l (so_ptr _ _ _ (carrier_ok G HG t d xs HR)))
      as (w' & -> & HO' & Ht').
    { now rewrite (carrier_own G HG t d xs HR). }
    cbn [unwind]. now apply Hgo.
Qed.

(** The source is not cloned; the elements are neither kept nor dropped. *)
Lemma c33_push_cloned_no_room_fact :
  forall (V : Type) (T : FullTable V) (P : profile) (G : tenv), types_ok G ->
  forall (b : vecdyn V) (r : vref V) w t xs x,
  live_vec_ref P G b r w -> contents G b t xs -> ref_is G r t x ->
  ~ room G t (vc_capacity b) (lenN xs + 1) ->
  exists p b' w', vd_push_cloned P G r b w = (Panic p, b', w') /\ lost_vec G b' /\
                  w_trace w' = w_trace w.
Proof.
  intros V T P G [HG HC HQ] b r w t xs x Hb Hc Hr Hno.
  destruct (live_vec_ref_rep P G HG HC HQ b r w t xs Hb Hc) as (d & l & rv & -> & HR & HO & Hrv).
  pose proof (rep_sized _ _ _ _ HR) as Hz.
  pose proof (ref_is_ok G r rv t x Hrv Hr (sized_not_unit G t HG Hz)) as Hok.
  unfold vc_capacity in *. cbn [vc_data] in *.
  unfold vd_push_cloned, vd_element_type_id, vc_element_type_id, on_data. cbn [vc_data vc_vtable].
  remember (Some (t, x)) as tv eqn:Etv.
  destruct Hok as [t' v Hbs Hty _ _ Hiv|]; [|discriminate]. injection Etv as -> ->.
  rewrite (rep_type G _ _ _ HR), Hty, N.eqb_refl, law_clone_raw, Hbs.
  assert (Hrl : lenN (repeat (Byte 0) (N.to_nat (t_size (G t)))) = t_size (G t))
    by (unfold lenN; rewrite repeat_length; lia).
  destruct (vv_resize_with_one P G HG t d xs
      (fun uninit w => call_clone_into_raw G (CloneRawOf t) (enc G t x) uninit w) w l HR HO)
    as [ w1 v d' w' Hw1 Hi HR' Hcap Hsame Hown HO' Hcan | w1 q w2 w2' Hw1 Hi HO2 Ht2 | w2 Hlt Hmax HO2 Ht2 | w1 v w2 i Hbad Hw1 Hi HO2].
  - intros bs w1 Hbl. rewrite call_clone_into_raw_eq by assumption.
    destruct (t_clone (G t) (w_trace w1) x) as [c1|].
    + left. do 2 eexists. split; [reflexivity|]. intros l'. symmetry. apply Owns_set_tr.
    + right. do 2 eexists. split; [reflexivity|]. reflexivity.
  - exfalso. apply Hno. destruct Hcan as [?|[? _]]; [now left|now right].
  - cbn [obind].
    assert (Htr : w_trace w2 = w_trace w1).
    { rewrite call_clone_into_raw_eq in Hi by assumption.
      destruct (t_clone (G t) (w_trace w1) x); [discriminate|]. now injection Hi as <- <-. }
    do 3 eexists. csplit; [reflexivity|apply (pois_lost G HG)|now rewrite Ht2, Htr, Hw1].
  - cbn [obind]. do 3 eexists. csplit; [reflexivity|apply (pois_lost G HG)|exact Ht2].
  - exfalso. apply Hno. right. destruct Hbad as (H3 & H1 & Hc1 & H2).
    unfold growth_fits. rewrite H3, H1, Hc1, H2. vm_compute. discriminate.
Qed.

(** The elements of both vectors are neither kept nor dropped, or (in the odd case) those of the
    target. *)
Lemma c28_append_no_room_fact :
  forall (V : Type) (T : FullTable V) (P : profile) (G : tenv), types_ok G ->
  forall (b b' : vecdyn V) w t xs ys,
  live_vecs P G b b' w -> contents G b t xs -> contents G b' t ys ->
  ~ room G t (vc_capacity b) (lenN xs + lenN ys) \/ odd_growth G t (vc_capacity b) (lenN xs + lenN ys) ->
  exists p b1 b1' w',
    vd_append P b b' w = (Panic p, b1, b1', w') /\ lost_vec G b1 /\ w_trace w' = w_trace w /\
    (~ room G t (vc_capacity b) (lenN xs + lenN ys) -> lost_vec G b1') /\
    (odd_growth G t (vc_capacity b) (lenN xs + lenN ys) -> contents G b1' t []).
Proof.
  intros V T P G [HG HC HQ] b b' w t xs ys Hl Hc Hc' Hbad.
  destruct (live_vecs_rep P G HG HC HQ b b' w t xs t ys Hl Hc Hc') as (d & d' & l & -> & -> & HR & HR' & HO).
  unfold vc_capacity in *. cbn [vc_data] in *.
  unfold vd_append, vc_append. rewrite (vc_type_rep G _ _ _ _ HR), (vc_type_rep G _ _ _ _ HR'), N.eqb_refl.
  cbn [vc_data vc_vtable].
  pose proof (vv_append_rep P G HG t d d' xs ys w l HR HR' HO) as Hres.
  rewrite <- lenN_app in *.
  destruct Hres as [d1 d2 w' HR1 HR2 Hcap Hblk Hcap1 HO' Htr Hcan|w' Hlt Hmax HO' Htr|d2 w' i Hb HR2 Hcap Hblk HO' Htr].
  - exfalso. destruct Hcan as [Hle|[Hg Hnb]].
    + destruct Hbad as [Hn|(_ & _ & H1 & H2)]; [apply Hn; now left|lia].
    + destruct Hbad as [Hn|Hb]; [apply Hn; now right|now apply Hnb].
  - cbn [obind]. do 4 eexists. csplit; [reflexivity|apply (pois_lost G HG)|exact Htr|intros _; apply (pois_lost G HG)|].
    intros (H3 & H1 & Hc1 & H2). exfalso. rewrite H3, H1, Hc1, H2 in Hmax. revert Hmax. vm_compute. discriminate.
  - cbn [obind]. do 4 eexists. csplit; [reflexivity|apply (pois_lost G HG)|exact Htr| |intros _; now apply rep_contents].
    intros Hn. exfalso. apply Hn. right. destruct Hb as (H3 & H1 & Hc1 & H2).
    unfold growth_fits. rewrite H3, H1, Hc1, H2. vm_compute. discriminate.
Qed.

(** Pushing a typed value: here the elements and the value are dropped, each once. *)
Lemma c28_push_as_no_room_fact :
  forall (V : Type) (T : FullTable V) (P : profile) (G : tenv), types_ok G ->
  forall (b : vecdyn V) w t xs x,
  live_vec P G b w -> contents G b t xs -> vc_capacity b <= lenN xs ->
  max_alloc (t_align (G t)) <
    N.max (min_non_zero_cap (t_size (G t))) (N.max (lenN xs * 2) (lenN xs + 1)) * t_size (G t) ->
  exists p b' w', vd_push_as P G t x b w = (Panic p, b', w') /\ lost_vec G b' /\
                  w_trace w' = w_trace w ++ drops G t [x] ++ drops G t xs.
Proof.
  intros V T P G [HG HC HQ] b w t xs x Hb Hc Hfull Hmax.
  destruct (live_vec_rep P G HG HC HQ b w t xs Hb Hc) as (d & l & -> & HR & HO).
  unfold vc_capacity in *. cbn [vc_data] in *.
  unfold vd_push_as. rewrite (vc_push_as_eq P G t d _ xs x w HR).
  pose proof (rep_cap _ _ _ _ HR) as Hcap. assert (E : lenN xs = vv_cap d) by lia.
  destruct (push_as_q P G HG HQ t d xs x w l HR HO) as [(d' & w' & HE & _)|(w' & HE & _ & Ht & _)].
  2:{ rewrite HE. cbn [obind]. do 3 eexists. csplit; [reflexivity|apply (pois_lost G HG)|exact Ht]. }
  exfalso. revert HE. unfold apply_unchecked. rewrite (into_vec_unchecked_rep P G HG _ _ _ HR).
  unfold push_closure, v_push.
  pose proof (rep_sized _ _ _ _ HR) as Hz. rewrite v_capacity_sized by exact Hz. cbn [v_len v_cap].
  rewrite (proj2 (N.eqb_eq _ _) E).
  assert (HO1 : Owns w (v_own (t_size (G t)) (t_align (G t))
                          (SVec (vv_blk d) (lenN xs) (vv_cap d) (encs G t xs)) ++ l)).
  { unfold v_own. cbn. now rewrite <- (rep_own G HG t d xs HR). }
  destruct (v_grow_spec (t_size (G t)) (t_align (G t)) 1 _ w l Hz (typed_ok G _ _ _ HR) HO1)
    as [(b & w1 & HE & Hm & _)|[HE _]]; rewrite HE.
  - unfold grow_cap in Hm. cbn [v_cap v_len] in Hm. rewrite <- E in Hm. lia.
  - rewrite (drop_val_q G HQ). cbn [unwind].
    destruct (vec_drop _ _ _ _) as [o3 w3]. destruct o3; discriminate.
Qed.
