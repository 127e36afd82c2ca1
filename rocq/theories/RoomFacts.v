(** * RoomFacts: the calls that grow a [VecCopy] panic whenever it cannot grow.

    The other direction, that they return whenever there is room, is in CopyFacts2.v. *)

From Verif Require Import CopyFacts4.

Lemma c09_resize_panics_fact :
  forall (V : Type) (P : profile) (G : tenv) (build : tyid -> V), wf_tenv G ->
  forall b w t xs n v,
  live_buffer P G build b w -> shows G b t xs -> fits P n (t_size (G t)) ->
  ~ room G t (vc_capacity b) n \/ odd_growth G t (vc_capacity b) n ->
  exists p b' w', vc_resize P G t n v b w = (Panic p, b', w') /\ gone G b'.
Proof.
  intros V P G build HG b w t xs n v Hb Hs Hf Hbad.
  pose proof Hb as Hb0. pose proof Hs as Hs0. live Hb Hs HR Hc l HO.
  pose proof (rep_cap _ _ _ _ HR) as Hcap.
  assert (Hlt : lenN xs < n).
  { unfold vc_capacity in Hbad. cbn [vc_data] in Hbad. destruct Hbad as [Hnr|(_ & _ & H1 & H2)]; [|lia].
    destruct (N.lt_ge_cases (lenN xs) n) as [?|Hge]; [assumption|].
    exfalso. apply Hnr. left. lia. }
  unfold vc_resize. rewrite (vc_check_rep G _ _ _ _ _ HR), N.eqb_refl.
  unfold vc_len at 1. cbn [vc_data]. rewrite (rep_len _ _ _ _ HR).
  rewrite (proj2 (N.leb_le _ _)) by lia.
  destruct (c08_reserve_panics_fact V P G build HG (VecCopy d vt) w t xs (n - lenN xs) Hb0 Hs0)
    as (p & b' & w' & HE & Hg).
  - destruct Hf as [Hf|Hf]; [left; nia|now right].
  - replace (lenN xs + (n - lenN xs)) with n by lia. exact Hbad.
  - unfold vc_len. cbn [vc_data]. rewrite (rep_len _ _ _ _ HR). rewrite HE. do 3 eexists. split; [reflexivity|exact Hg].
Qed.

Lemma c10_push_full_panics_fact :
  forall (V : Type) (P : profile) (G : tenv) (build : tyid -> V), wf_tenv G ->
  forall b w t xs v,
  live_buffer P G build b w -> shows G b t xs ->
  ~ room G t (vc_capacity b) (lenN xs + 1) ->
  exists p b' w', vc_push P (mk_ref G build t v) b w = (Panic p, b', w') /\ gone G b'.
Proof.
  intros V P G build HG b w t xs v Hb Hs Hno.
  destruct (N.eq_dec (t_size (G t)) (t_align (G t))) as [Hsa|Hsa].
  2:{ pose proof Hs as [Hz _]. eapply c10_push_never_works_fact; eauto.
      pose proof (align_le_size G HG t Hz). lia. }
  live Hb Hs HR Hc l HO. unfold vc_capacity in *. cbn [vc_data] in *.
  unfold vc_push. rewrite (vc_size_rep G HG _ _ _ _ HR), (vc_type_rep G _ _ _ _ HR).
  unfold mk_ref, copy_ref_new, cr_size. cbn [cr_bytes cr_type_id]. rewrite enc_length, !N.eqb_refl.
  unfold on_data. cbn [vc_data vc_vtable].
  assert (Hdef : gone G (VecCopy vv_default vt)) by (apply poisoned_gone; auto; apply vv_default_poisoned).
  pose proof (vv_push_one_chunk P G HG t d xs v w l HR HO Hsa) as Hres.
  assert (Hlen : lenN (xs ++ [v]) = lenN xs + 1) by (rewrite lenN_app; reflexivity).
  inversion Hres as [d' w' HR' Hcap _ HO' Htr Hcan HE|w' Hlt Hmax HO' Htr HE|w' i Hbad HO' Htr HE];
    try (cbn [obind]; do 3 eexists; split; [reflexivity|exact Hdef]).
  exfalso. rewrite Hlen in *. apply Hno. destruct Hcan as [?|[? _]]; [now left|now right].
Qed.

Lemma c12_append_panics_fact :
  forall (V : Type) (P : profile) (G : tenv) (build : tyid -> V), wf_tenv G ->
  forall b b' w t xs ys,
  live_pair P G build b b' w -> shows G b t xs -> shows G b' t ys ->
  ~ room G t (vc_capacity b) (lenN xs + lenN ys) \/ odd_growth G t (vc_capacity b) (lenN xs + lenN ys) ->
  exists p b1 b1' w',
    vc_append P b b' w = (Panic p, b1, b1', w') /\ gone G b1 /\
    (~ room G t (vc_capacity b) (lenN xs + lenN ys) -> gone G b1') /\
    (odd_growth G t (vc_capacity b) (lenN xs + lenN ys) -> shows G b1' t []).
Proof.
  intros V P G build HG b b' w t xs ys Hp Hs Hs' Hbad.
  destruct (live_pair_rep P G HG build b b' w t xs t ys Hp Hs Hs') as (HR & HR' & _ & _ & l & HO).
  destruct b as [d vt], b' as [d' vt']. unfold vc_capacity in *. cbn [vc_data] in *.
  unfold vc_append. rewrite (vc_type_rep G _ _ _ _ HR), (vc_type_rep G _ _ _ _ HR'), N.eqb_refl.
  cbn [vc_data vc_vtable].
  assert (Hdef : forall u : V, gone G (VecCopy vv_default u))
    by (intros u; apply poisoned_gone; auto; apply vv_default_poisoned).
  pose proof (vv_append_rep P G HG t d d' xs ys w l HR HR' HO) as Hres.
  rewrite <- lenN_app in *.
  inversion Hres as [d1 d2 w' HR1 HR2 Hcap Hblk Hcap1 HO' Htr Hcan HE|w' Hlt Hmax HO' Htr HE|d2 w' i Hb HR2 Hcap Hblk HO' Htr HE].
  - exfalso. destruct Hcan as [Hle|[Hg Hnb]].
    + destruct Hbad as [Hn|(_ & _ & H1 & H2)]; [apply Hn; now left|lia].
    + destruct Hbad as [Hn|Hb]; [apply Hn; now right|now apply Hnb].
  - cbn [obind]. do 4 eexists. csplit; [reflexivity|apply Hdef|intros _; apply Hdef|].
    intros (H3 & H1 & Hc1 & H2). exfalso. rewrite H3, H1, Hc1, H2 in Hmax. revert Hmax. vm_compute. discriminate.
  - cbn [obind]. do 4 eexists. csplit; [reflexivity|apply Hdef| |intros _; now shw].
    intros Hn. exfalso. apply Hn. right. destruct Hb as (H3 & H1 & Hc1 & H2).
    unfold growth_fits. rewrite H3, H1, Hc1, H2. vm_compute. discriminate.
Qed.

Lemma c60_push_as_panics_fact :
  forall (V : Type) (P : profile) (G : tenv) (build : tyid -> V), wf_tenv G ->
  forall b w t xs v,
  live_buffer P G build b w -> shows G b t xs ->
  vc_capacity b <= lenN xs ->
  max_alloc (t_align (G t)) <
    N.max (min_non_zero_cap (t_size (G t))) (N.max (lenN xs * 2) (lenN xs + 1)) * t_size (G t) ->
  exists p b' w', vc_push_as P G t v b w = (Panic p, b', w') /\ gone G b'.
Proof.
  intros V P G build HG b w t xs v Hb Hs Hfull Hmax. live Hb Hs HR Hc l HO.
  unfold vc_capacity in *. cbn [vc_data] in *.
  rewrite (vc_push_as_eq P G t d vt xs v w HR).
  assert (Hdef : gone G (VecCopy vv_default vt)) by (apply poisoned_gone; auto; apply vv_default_poisoned).
  pose proof (rep_cap _ _ _ _ HR) as Hcap. assert (E : lenN xs = vv_cap d) by lia.
  pose proof (push_as_rep P G HG t d xs v w l HR HO) as Hres.
  remember (apply_unchecked P G t (push_closure G t v) d w) as r eqn:Er.
  destruct Hres as [d' w' HR' HO' Htr Hcap' Hsame|o w' _ _ Ho].
  2:{ destruct (Ho Hc) as (-> & _ & _). cbn [obind]. do 3 eexists. split; [reflexivity|exact Hdef]. }
  exfalso. revert Er. unfold apply_unchecked. rewrite (into_vec_unchecked_rep P G HG _ _ _ HR).
  unfold push_closure, v_push.
  pose proof (rep_sized _ _ _ _ HR) as Hz. rewrite v_capacity_sized by exact Hz. cbn [v_len v_cap].
  rewrite (proj2 (N.eqb_eq _ _) E).
  assert (HO1 : Owns w (v_own (t_size (G t)) (t_align (G t))
                          (SVec (vv_blk d) (lenN xs) (vv_cap d) (encs G t xs)) ++ l)).
  { unfold v_own. cbn. now rewrite <- (rep_own G HG t d xs HR). }
  destruct (v_grow_spec (t_size (G t)) (t_align (G t)) 1 _ w l Hz (typed_ok G _ _ _ HR) HO1)
    as [(b & w1 & HE & Hm & _)|[HE _]]; rewrite HE.
  - unfold grow_cap in Hm. cbn [v_cap v_len] in Hm. rewrite <- E in Hm. lia.
  - unfold drop_val. rewrite Hc. cbn [unwind].
    destruct (vec_drop _ _ _ _) as [o3 w3]. destruct o3; discriminate.
Qed.
