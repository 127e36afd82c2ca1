(** * CopyFacts2: proofs of the property theorems about [VecCopy], continued (C07-C20). *)

From Verif Require Export CopyFacts.

(** ** C07 *)

Lemma c07_zero_sized_rejected_fact :
  forall (V : Type) (P : profile) (G : tenv) (build : tyid -> V), wf_tenv G ->
  forall t w,
  t_size (G t) = 0 -> t_copy (G t) = true ->
  (forall cap xs vec w1, vec_make G t cap xs w = (Ret vec, w1) ->
     vc_from_vec G t vec (build t) w1 = (Panic PAssert, w1)) /\
  vc_with_type G t (build t) w = (Panic PAssert, w) /\
  (forall n, vc_with_capacity G t n (build t) w = (Panic PAssert, w)) /\
  (forall n v, vc_with_size G t n v (build t) w = (Panic PAssert, w)) /\
  (forall xs, vc_from_slice G t xs (build t) w = (Panic PAssert, w)) /\
  (forall v, vc_with_type_from P (meta_of_copy_ref (mk_ref G build t v)) w = (Panic PDivZero, w)) /\
  (forall v hint rest, vc_from_iter P hint (mk_ref G build t v :: rest) w = (Panic PDivZero, w)).
Proof.
  intros V P G build HG t w Hz Hc.
  assert (HM : forall v, vc_with_type_from P (meta_of_copy_ref (mk_ref G build t v)) w = (Panic PDivZero, w)).
  { intros v. rewrite meta_of_ref_elem. apply vc_with_type_from_zst; [apply HG|now apply chunks_zst]. }
  csplit.
  - intros cap xs vec w1. rewrite vec_make_zst by assumption. intros H. injection H as <- <-.
    now apply vc_from_vec_zst.
  - now apply vc_from_vec_zst.
  - intros n. unfold vc_with_capacity, v_with_capacity. rewrite Hz. cbn [N.eqb]. now apply vc_from_vec_zst.
  - intros n v. unfold vc_with_size. rewrite vec_make_zst by assumption. now apply vc_from_vec_zst.
  - intros xs. unfold vc_from_slice. rewrite vec_make_zst by assumption. now apply vc_from_vec_zst.
  - exact HM.
  - intros v hint rest. unfold vc_from_iter. now rewrite HM.
Qed.

Lemma c07_sized_constructors_fact :
  forall (V : Type) (P : profile) (G : tenv) (build : tyid -> V), wf_tenv G ->
  forall t w,
  wf_world w -> t_size (G t) <> 0 ->
  (exists b w', vc_with_type G t (build t) w = (Ret b, w') /\ shows G b t []) /\
  (forall n, n * t_size (G t) <= max_alloc (t_align (G t)) ->
     exists b w', vc_with_capacity G t n (build t) w = (Ret b, w') /\ shows G b t [] /\
                  n <= vc_capacity b) /\
  (forall n v, n * t_size (G t) <= max_alloc (t_align (G t)) ->
     exists b w', vc_with_size G t n v (build t) w = (Ret b, w') /\
                  shows G b t (repeat v (N.to_nat n))) /\
  (forall xs, lenN xs * t_size (G t) <= max_alloc (t_align (G t)) ->
     exists b w', vc_from_slice G t xs (build t) w = (Ret b, w') /\ shows G b t xs) /\
  (forall v, exists b w',
     vc_with_type_from P (meta_of_copy_ref (mk_ref G build t v)) w = (Ret b, w') /\
     shows G b t []).
Proof.
  intros V P G build HG t w Hw Hz.
  assert (HO : Owns w (w_live w)) by now split.
  assert (HMk : forall cap xs, N.max cap (lenN xs) * t_size (G t) <= max_alloc (t_align (G t)) ->
    exists vec w1, vec_make G t cap xs w = (Ret vec, w1) /\
    exists b w', vc_from_vec G t vec (build t) w1 = (Ret b, w') /\ shows G b t xs /\ cap <= vc_capacity b).
  { intros cap xs Hf.
    destruct (vec_make_spec G t cap xs w _ Hz HO) as [(i & w1 & HE & Hok & HO1 & _)|[_ Hbad]]; [|lia].
    do 2 eexists. split; [exact HE|].
    destruct (vc_from_vec_any G HG t i _ xs (build t) w1 _ Hz Hok HO1) as (d & w' & HF & HR & _ & _ & Hcap & _).
    do 2 eexists. csplit; [exact HF|now shw|]. unfold vc_capacity. cbn [vc_data]. lia. }
  csplit.
  - destruct (vc_from_vec_any G HG t None 0 [] (build t) w (w_live w) Hz) as (d & w' & HF & HR & _).
    { apply svec_nil_ok. } { cbn [owned N.mul]. exact HO. }
    do 2 eexists. split; [exact HF|now shw].
  - intros n Hn. destruct (HMk n []) as (vec & w1 & HE & b & w' & HF & Hs & Hc).
    { unfold lenN. cbn [List.length N.of_nat]. now rewrite N.max_0_r. }
    exists b, w'. csplit; try assumption. unfold vc_with_capacity. unfold vec_make in HE.
    unfold lenN in HE. cbn [List.length N.of_nat] in HE. rewrite N.max_0_r in HE.
    unfold v_with_capacity in *. apply N.eqb_neq in Hz. rewrite Hz in *.
    destruct (_ <=? _); [|discriminate]. destruct (alloc _ _ _) as [i w2].
    injection HE as <- <-. exact HF.
  - intros n v Hn. destruct (HMk n (repeat v (N.to_nat n))) as (vec & w1 & HE & b & w' & HF & Hs & Hc).
    { unfold lenN. rewrite repeat_length. rewrite N2Nat.id. now rewrite N.max_id. }
    exists b, w'. split; [|exact Hs]. unfold vc_with_size. now rewrite HE.
  - intros xs Hn. destruct (HMk (lenN xs) xs) as (vec & w1 & HE & b & w' & HF & Hs & Hc).
    { now rewrite N.max_id. }
    exists b, w'. split; [|exact Hs]. unfold vc_from_slice. now rewrite HE.
  - intros v. rewrite meta_of_ref_elem.
    destruct (vc_with_type_from_rep P G HG t (build t) w _ Hz HO) as (d & w' & HF & HR & _).
    do 2 eexists. split; [exact HF|now shw].
Qed.

(** ** C08 *)

Lemma room_no_wrap G t d xs n :
  wf_tenv G -> Rep G t d xs -> room G t (vv_cap d) (lenN xs + n) -> n * t_size (G t) <= usize_max.
Proof.
  intros HG HR Hroom. pose proof (max_alloc_le (t_align (G t))) as Hm.
  assert (isize_max <= usize_max) by (unfold isize_max, usize_max; lia).
  destruct Hroom as [H1|H1].
  - pose proof (rep_max _ _ _ _ HR). nia.
  - unfold growth_fits in H1. nia.
Qed.

Lemma c08_reserve_partial_fact :
  forall (V : Type) (P : profile) (G : tenv) (build : tyid -> V), wf_tenv G ->
  forall b w t xs n,
  live_buffer P G build b w -> shows G b t xs ->
  room G t (vc_capacity b) (lenN xs + n) -> ~ odd_growth G t (vc_capacity b) (lenN xs + n) ->
  exists b' w',
    vc_reserve P n b w = (Ret tt, b', w') /\ shows G b' t xs /\
    lenN xs + n <= vc_capacity b' /\ vc_capacity b <= vc_capacity b' /\
    w_trace w' = w_trace w /\
    (lenN xs + n <= vc_capacity b -> b' = b /\ w' = w).
Proof.
  intros V P G build HG b w t xs n Hb Hs Hroom Hodd. live Hb Hs HR Hc l HO.
  unfold vc_capacity in *. cbn [vc_data] in *.
  pose proof (room_no_wrap G t d xs n HG HR Hroom) as Hnw.
  pose proof (chunks_le_size G HG t n) as Hcs.
  unfold vc_reserve, on_data. cbn [vc_data vc_vtable].
  pose proof (vv_reserve_rep P G HG t d xs n w l HR HO ltac:(lia)) as Hres.
  inversion Hres as [Hle HE|d' w' Hlt HR' Hn Hcap HO' Htr HE|w' Hlt Hmax HO' Htr HE|w' i Hbad HO' Htr HE].
  - exists (VecCopy d vt), w. csplit; auto; try (now shw); cbn [vc_data]; lia.
  - exists (VecCopy d' vt), w'. csplit; auto; try (now shw); cbn [vc_data]; try lia.
  - exfalso. destruct Hroom as [?|Hg]; [lia|]. unfold growth_fits in Hg. lia.
  - exfalso. now apply Hodd.
Qed.

Lemma c08_reserve_panics_fact :
  forall (V : Type) (P : profile) (G : tenv) (build : tyid -> V), wf_tenv G ->
  forall b w t xs n,
  live_buffer P G build b w -> shows G b t xs -> fits P n (t_size (G t)) ->
  ~ room G t (vc_capacity b) (lenN xs + n) \/ odd_growth G t (vc_capacity b) (lenN xs + n) ->
  exists p b' w', vc_reserve P n b w = (Panic p, b', w') /\ gone G b'.
Proof.
  intros V P G build HG b w t xs n Hb Hs Hf Hbad. live Hb Hs HR Hc l HO.
  unfold vc_capacity in *. cbn [vc_data] in *.
  unfold vc_reserve, on_data. cbn [vc_data vc_vtable].
  assert (Hdef : gone G (VecCopy vv_default vt)) by (apply poisoned_gone; auto; apply vv_default_poisoned).
  destruct (N.le_gt_cases (n * chunks_of G t) usize_max) as [Hle|Hgt].
  - pose proof (vv_reserve_rep P G HG t d xs n w l HR HO Hle) as Hres.
    inversion Hres as [Hle' HE|d' w' Hlt HR' Hn Hcap HO' Htr HE|w' Hlt Hmax HO' Htr HE|w' i Hbad' HO' Htr HE];
      try (do 3 eexists; split; [reflexivity|exact Hdef]).
    + exfalso. destruct Hbad as [Hnr|[_ [_ [H1 H2]]]]; [apply Hnr; now left|lia].
    + exfalso. match goal with H : can_grow _ _ _ _ |- _ => destruct H as [Hgf Hno] end.
      destruct Hbad as [Hnr|Hodd]; [apply Hnr; now right|now apply Hno].
  - (* the multiplication overflows *)
    pose proof (chunks_le_size G HG t n) as Hcs.
    destruct Hf as [Hf|Hov]; [lia|].
    unfold vv_reserve. rewrite (dispatch_rep P G HG t d xs _ w HR).
    rewrite (rep_elem _ _ _ _ HR). change (e_size (elem_new G t)) with (chunks_of G t).
    unfold umul. rewrite (proj2 (N.leb_gt _ _) Hgt). rewrite Hov. cbn [with_val retype].
    destruct (v_drop_ok (t_align (G t)) (t_align (G t)) (carrier G t d) w l (so_ptr _ _ _ (carrier_ok G HG t d xs HR)))
      as (w' & -> & _).
    { now rewrite (carrier_own G HG t d xs HR). }
    cbn [unwind]. do 3 eexists. split; [reflexivity|exact Hdef].
Qed.

(** ** C09 *)

Lemma c09_resize_partial_fact :
  forall (V : Type) (P : profile) (G : tenv) (build : tyid -> V), wf_tenv G ->
  forall b w t xs n v,
  live_buffer P G build b w -> shows G b t xs ->
  room G t (vc_capacity b) n -> ~ odd_growth G t (vc_capacity b) n ->
  exists b' w',
    vc_resize P G t n v b w = (Ret true, b', w') /\
    shows G b' t (firstnN n xs ++ repeat v (N.to_nat (n - lenN xs))) /\
    w_trace w' = w_trace w.
Proof.
  intros V P G build HG b w t xs n v Hb Hs Hroom Hodd. pose proof Hb as Hb0. pose proof Hs as Hs0.
  live Hb Hs HR Hc l HO.
  unfold vc_resize. rewrite (vc_check_rep G _ _ _ _ _ HR), N.eqb_refl.
  unfold vc_len. cbn [vc_data]. rewrite (rep_len _ _ _ _ HR).
  destruct (lenN xs <=? n) eqn:El.
  - apply N.leb_le in El. unfold vc_capacity in *. cbn [vc_data] in *.
    assert (Hn : lenN xs + (n - lenN xs) = n) by lia.
    unfold vc_reserve, on_data. cbn [vc_data vc_vtable].
    pose proof (room_no_wrap G t d xs (n - lenN xs) HG HR) as Hnw. rewrite Hn in Hnw.
    specialize (Hnw Hroom). pose proof (chunks_le_size G HG t (n - lenN xs)) as Hcs.
    pose proof (vv_reserve_rep P G HG t d xs (n - lenN xs) w l HR HO ltac:(lia)) as Hres.
    rewrite Hn in Hres. rewrite firstnN_all by lia.
    inversion Hres as [Hle HE|d' w' Hlt HR' Hn' Hcap HO' Htr _ HE|w' Hlt Hmax HO' Htr HE|w' i Hbad HO' Htr HE].
    + destruct (vc_push_n_rep P G HG (N.to_nat (n - lenN xs)) t d vt xs v w l HR HO) as (d' & -> & HR' & _).
      { lia. }
      cbn [obind]. do 2 eexists. csplit; [reflexivity|now shw|reflexivity].
    + destruct (vc_push_n_rep P G HG (N.to_nat (n - lenN xs)) t d' vt xs v w' l HR' HO') as (d2 & -> & HR2 & _).
      { lia. }
      cbn [obind]. do 2 eexists. csplit; [reflexivity|now shw|exact Htr].
    + exfalso. destruct Hroom as [?|Hg]; [lia|]. unfold growth_fits in Hg. lia.
    + exfalso. now apply Hodd.
  - apply N.leb_gt in El. unfold on_data. cbn [vc_data vc_vtable].
    destruct (vv_truncate_rep P G HG t d xs n w l HR HO ltac:(lia)) as (d' & -> & HR' & _).
    cbn [obind]. replace (n - lenN xs) with 0 by lia. cbn [N.to_nat repeat]. rewrite app_nil_r.
    do 2 eexists. csplit; [reflexivity|now shw|reflexivity].
Qed.

Lemma c09_shrinking_resize_fact :
  forall (V : Type) (P : profile) (G : tenv) (build : tyid -> V), wf_tenv G ->
  forall b w t xs n v,
  live_buffer P G build b w -> shows G b t xs -> n <= lenN xs ->
  exists b',
    vc_resize P G t n v b w = (Ret true, b', w) /\ shows G b' t (firstnN n xs) /\
    vc_capacity b' = vc_capacity b.
Proof.
  intros V P G build HG b w t xs n v Hb Hs Hn. live Hb Hs HR Hc l HO.
  unfold vc_resize. rewrite (vc_check_rep G _ _ _ _ _ HR), N.eqb_refl.
  unfold vc_len. cbn [vc_data]. rewrite (rep_len _ _ _ _ HR).
  destruct (lenN xs <=? n) eqn:El.
  - apply N.leb_le in El. replace (n - lenN xs) with 0 by lia.
    unfold vc_reserve, on_data. cbn [vc_data vc_vtable N.to_nat].
    pose proof (vv_reserve_rep P G HG t d xs 0 w l HR HO) as Hres.
    rewrite N.mul_0_l, N.add_0_r in Hres. specialize (Hres (N.le_0_l _)).
    pose proof (rep_cap _ _ _ _ HR).
    inversion Hres as [Hle HE|d' w' Hlt|w' Hlt|w' i Hbad HO' Htr HE]; try lia.
    + cbn [vc_push_n obind]. eexists. csplit; [reflexivity| |reflexivity].
      rewrite firstnN_all by lia. now shw.
    + destruct Hbad as (_ & _ & H1 & H2). lia.
  - apply N.leb_gt in El. unfold on_data. cbn [vc_data vc_vtable].
    destruct (vv_truncate_rep P G HG t d xs n w l HR HO ltac:(lia)) as (d' & -> & HR' & Hcap & _).
    cbn [obind]. eexists. csplit; [reflexivity|now shw|exact Hcap].
Qed.

(** ** C10 *)

Lemma c10_push_partial_fact :
  forall (V : Type) (P : profile) (G : tenv) (build : tyid -> V), wf_tenv G ->
  forall b w t xs v,
  live_buffer P G build b w -> shows G b t xs ->
  t_size (G t) = t_align (G t) -> room G t (vc_capacity b) (lenN xs + 1) ->
  exists b' w',
    vc_push P (mk_ref G build t v) b w = (Ret true, b', w') /\ shows G b' t (xs ++ [v]) /\
    w_trace w' = w_trace w.
Proof.
  intros V P G build HG b w t xs v Hb Hs Hsa Hroom. live Hb Hs HR Hc l HO.
  unfold vc_capacity in *. cbn [vc_data] in *.
  unfold vc_push. rewrite (vc_size_rep G HG _ _ _ _ HR), (vc_type_rep G _ _ _ _ HR).
  unfold mk_ref, copy_ref_new, cr_size. cbn [cr_bytes cr_type_id]. rewrite enc_length, !N.eqb_refl.
  unfold on_data. cbn [vc_data vc_vtable].
  pose proof (vv_push_one_chunk P G HG t d xs v w l HR HO Hsa) as Hres.
  assert (Hlen : lenN (xs ++ [v]) = lenN xs + 1) by (rewrite lenN_app; reflexivity).
  inversion Hres as [d' w' HR' Hcap _ HO' Htr _ HE|w' Hlt Hmax HO' Htr HE|w' i Hbad HO' Htr HE].
  - cbn [obind]. do 2 eexists. csplit; [reflexivity|now shw|exact Htr].
  - exfalso. rewrite Hlen in *. destruct Hroom as [?|Hg]; [lia|]. unfold growth_fits in Hg. lia.
  - exfalso. destruct Hbad as (H3 & H1 & _). lia.
Qed.

Lemma c10_push_other_type_fact :
  forall (V : Type) (P : profile) (G : tenv) (build : tyid -> V), wf_tenv G ->
  forall b w t xs t' v,
  live_buffer P G build b w -> shows G b t xs -> t' <> t ->
  vc_push P (mk_ref G build t' v) b w =
  (if t_size (G t') =? t_size (G t) then Ret false else Panic PAssert, b, w).
Proof.
  intros V P G build HG b w t xs t' v Hb Hs Hne. live Hb Hs HR Hc l HO.
  unfold vc_push. rewrite (vc_size_rep G HG _ _ _ _ HR), (vc_type_rep G _ _ _ _ HR).
  unfold mk_ref, copy_ref_new, cr_size. cbn [cr_bytes cr_type_id]. rewrite enc_length.
  apply N.eqb_neq in Hne. rewrite Hne. now destruct (t_size (G t') =? t_size (G t)).
Qed.

Lemma c10_push_never_works_fact :
  forall (V : Type) (P : profile) (G : tenv) (build : tyid -> V), wf_tenv G ->
  forall b w t xs v,
  live_buffer P G build b w -> shows G b t xs -> t_align (G t) < t_size (G t) ->
  exists p b' w', vc_push P (mk_ref G build t v) b w = (Panic p, b', w') /\ gone G b'.
Proof.
  intros V P G build HG b w t xs v Hb Hs Hsa. live Hb Hs HR Hc l HO.
  unfold vc_push. rewrite (vc_size_rep G HG _ _ _ _ HR), (vc_type_rep G _ _ _ _ HR).
  unfold mk_ref, copy_ref_new, cr_size. cbn [cr_bytes cr_type_id]. rewrite enc_length, !N.eqb_refl.
  unfold on_data. cbn [vc_data vc_vtable].
  destruct (vv_push_many_chunks P G HG t d xs (enc G t v) w l HR HO Hsa) as (w' & leak & HE & _).
  { apply enc_length. }
  assert (Hdef : gone G (VecCopy vv_default vt)) by (apply poisoned_gone; auto; apply vv_default_poisoned).
  destruct HE as [->|[-> _]]; cbn [obind]; do 3 eexists; (split; [reflexivity|exact Hdef]).
Qed.

(** ** C60 *)

Lemma c60_push_as_fact :
  forall (V : Type) (P : profile) (G : tenv) (build : tyid -> V), wf_tenv G ->
  forall b w t xs v,
  live_buffer P G build b w -> shows G b t xs ->
  lenN xs < vc_capacity b \/
  N.max (min_non_zero_cap (t_size (G t))) (N.max (lenN xs * 2) (lenN xs + 1)) * t_size (G t)
    <= max_alloc (t_align (G t)) ->
  exists b' w',
    vc_push_as P G t v b w = (Ret true, b', w') /\ shows G b' t (xs ++ [v]) /\
    w_trace w' = w_trace w /\ vc_capacity b <= vc_capacity b' /\
    (lenN xs < vc_capacity b -> w' = w /\ vc_capacity b' = vc_capacity b).
Proof.
  intros V P G build HG b w t xs v Hb Hs Hroom. live Hb Hs HR Hc l HO.
  unfold vc_capacity in *. cbn [vc_data] in *.
  rewrite (vc_push_as_eq P G t d vt xs v w HR).
  pose proof (push_as_rep P G HG t d xs v w l HR HO) as Hres.
  inversion Hres as [d' w' HR' HO' Htr Hcap Hsame HE|o w' Hfull Hmax _ HE].
  - cbn [obind]. do 2 eexists. csplit; [reflexivity|now shw|exact Htr|exact Hcap|].
    intros Hlt. cbn [vc_data]. destruct Hsame as (-> & Hc' & _); [lia|auto].
  - exfalso. rewrite Hfull in *. destruct Hroom; lia.
Qed.

(** ** C11 *)

Lemma extend_loop_ok :
  forall (V U : Type) (P : profile) (G : tenv) (build : tyid -> U), wf_tenv G ->
  forall t vs d (vt : V) xs w l,
  Rep G t d xs -> Owns w (vv_own d ++ l) -> t_size (G t) = t_align (G t) ->
  lenN xs + lenN vs <= vv_cap d \/ growth_fits G t (lenN xs + lenN vs) (lenN xs + lenN vs) ->
  exists d' w',
    vc_extend_loop P (map (mk_ref G build t) vs) (VecCopy d vt) w = (Ret tt, VecCopy d' vt, w') /\
    Rep G t d' (xs ++ vs) /\ Owns w' (vv_own d' ++ l) /\ w_trace w' = w_trace w.
Proof.
  intros V U P G build HG t vs. induction vs as [|v vs IH]; intros d vt xs w l HR HO Hsa Hroom.
  - exists d, w. rewrite app_nil_r. csplit; auto.
  - cbn [map vc_extend_loop]. rewrite (vc_size_rep G HG _ _ _ _ HR), (vc_type_rep G _ _ _ _ HR).
    unfold mk_ref at 1 2 3, copy_ref_new, cr_size. cbn [cr_bytes cr_type_id]. rewrite enc_length, !N.eqb_refl.
    cbn [negb]. unfold on_data. cbn [vc_data vc_vtable].
    assert (Hlen : lenN (xs ++ [v]) = lenN xs + 1) by (rewrite lenN_app; reflexivity).
    assert (Hlv : lenN (v :: vs) = lenN vs + 1) by (unfold lenN; cbn [List.length]; lia).
    rewrite Hlv in Hroom.
    pose proof (vv_push_one_chunk P G HG t d xs v w l HR HO Hsa) as Hres.
    inversion Hres as [d' w' HR' Hcap Hsame HO' Htr _ HE|w' Hlt Hmax HO' Htr HE|w' i Hbad HO' Htr HE].
    + destruct (IH d' vt (xs ++ [v]) w' l HR' HO' Hsa) as (d2 & w2 & HE2 & HR2 & HO2 & Ht2).
      { rewrite Hlen. replace (lenN xs + 1 + lenN vs) with (lenN xs + (lenN vs + 1)) by lia.
        destruct Hroom as [Hr|Hr]; [left; lia|right; exact Hr]. }
      exists d2, w2. rewrite <- app_assoc in HR2. csplit; try assumption. congruence.
    + exfalso. rewrite Hlen in *. pose proof (rep_cap _ _ _ _ HR) as Hle.
      assert (Ec : vv_cap d = lenN xs) by lia. rewrite Ec in Hmax.
      destruct Hroom as [?|Hg]; [lia|]. unfold growth_fits in Hg. nia.
    + exfalso. destruct Hbad as (H3 & H1 & _). lia.
Qed.

Lemma c11_extend_partial_fact :
  forall (V : Type) (P : profile) (G : tenv) (build : tyid -> V), wf_tenv G ->
  forall b w t xs hint vs,
  live_buffer P G build b w -> shows G b t xs ->
  t_size (G t) = t_align (G t) ->
  room G t (vc_capacity b) (lenN xs + hint) ->
  lenN vs <= hint \/ growth_fits G t (lenN xs + lenN vs) (lenN xs + lenN vs) ->
  exists b' w',
    vc_extend P hint (map (mk_ref G build t) vs) b w = (Ret tt, b', w') /\
    shows G b' t (xs ++ vs) /\ w_trace w' = w_trace w.
Proof.
  intros V P G build HG b w t xs hint vs Hb Hs Hsa Hroom Hvs. live Hb Hs HR Hc l HO.
  unfold vc_capacity in *. cbn [vc_data] in *.
  unfold vc_extend, vc_reserve, on_data. cbn [vc_data vc_vtable].
  pose proof (room_no_wrap G t d xs hint HG HR Hroom) as Hnw.
  pose proof (chunks_le_size G HG t hint) as Hcs.
  pose proof (vv_reserve_rep P G HG t d xs hint w l HR HO ltac:(lia)) as Hres.
  inversion Hres as [Hle HE|d' w' Hlt HR' Hn' Hcap HO' Htr _ HE|w' Hlt Hmax HO' Htr HE|w' i Hbad HO' Htr HE].
  - destruct (extend_loop_ok V V P G build HG t vs d vt xs w l HR HO Hsa) as (d2 & w2 & HE2 & HR2 & HO2 & Ht2).
    { destruct Hvs; [left; lia|now right]. }
    exists (VecCopy d2 vt), w2. csplit; [exact HE2|now shw|exact Ht2].
  - destruct (extend_loop_ok V V P G build HG t vs d' vt xs w' l HR' HO' Hsa) as (d2 & w2 & HE2 & HR2 & HO2 & Ht2).
    { destruct Hvs; [left; lia|now right]. }
    exists (VecCopy d2 vt), w2. csplit; [exact HE2|now shw|congruence].
  - exfalso. destruct Hroom as [?|Hg]; [lia|]. unfold growth_fits in Hg. lia.
  - exfalso. destruct Hbad as (H3 & H1 & _). lia.
Qed.

Lemma c11_collect_partial_fact :
  forall (V : Type) (P : profile) (G : tenv) (build : tyid -> V), wf_tenv G ->
  forall w t hint v vs,
  wf_world w -> t_size (G t) <> 0 -> t_size (G t) = t_align (G t) ->
  room G t 1 (1 + hint) ->
  lenN vs <= hint \/ growth_fits G t (1 + lenN vs) (1 + lenN vs) ->
  exists b w',
    vc_from_iter P hint (map (mk_ref G build t) (v :: vs)) w = (Ret b, w') /\
    shows G b t (v :: vs) /\ w_trace w' = w_trace w.
Proof.
  intros V P G build HG w t hint v vs Hw Hz Hsa Hroom Hvs.
  unfold vc_from_iter. cbn [map]. rewrite meta_of_ref_elem.
  destruct (vc_with_type_from_rep P G HG t (build t) w (w_live w) Hz ltac:(now split))
    as (d & w1 & -> & HR & Hc1 & HO & Htr).
  unfold vc_push. rewrite (vc_size_rep G HG _ _ _ _ HR), (vc_type_rep G _ _ _ _ HR).
  unfold mk_ref at 1 2 3, copy_ref_new, cr_size. cbn [cr_bytes cr_type_id]. rewrite enc_length, !N.eqb_refl.
  unfold on_data at 1. cbn [vc_data vc_vtable].
  pose proof (vv_push_one_chunk P G HG t d [] v w1 _ HR HO Hsa) as Hres. cbn [app] in Hres.
  change (lenN [v]) with 1 in Hres.
  inversion Hres as [d' w' HR' Hcap Hsame HO' Htr' _ HE|w' Hlt Hmax HO' Htr' HE|w' i Hbad HO' Htr' HE].
  - destruct Hsame as (-> & Hcap' & _). { change (lenN [v]) with 1. lia. }
    cbn [obind]. unfold vc_extend, vc_reserve, on_data. cbn [vc_data vc_vtable].
    assert (Hroom' : room G t (vv_cap d') (lenN [v] + hint)).
    { rewrite Hcap', Hc1. exact Hroom. }
    pose proof (room_no_wrap G t d' [v] hint HG HR' Hroom') as Hnw.
    pose proof (chunks_le_size G HG t hint) as Hcs.
    pose proof (vv_reserve_rep P G HG t d' [v] hint w1 _ HR' HO' ltac:(lia)) as Hres2.
    change (lenN [v]) with 1 in *. clear Hres HE.
    inversion Hres2 as [Hle HE|d2 w2 Hlt HR2 Hn2 Hcap2 HO2 Htr2 _ HE|w2 Hlt Hmax HO2 Htr2 HE|w2 i Hbad HO2 Htr2 HE].
    + destruct (extend_loop_ok V V P G build HG t vs d' (build t) [v] w1 _ HR' HO' Hsa) as (d3 & w3 & HE3 & HR3 & HO3 & Ht3).
      { change (lenN [v]) with 1. destruct Hvs; [left; lia|now right]. }
      rewrite HE3. do 2 eexists. csplit; [reflexivity|now shw|congruence].
    + destruct (extend_loop_ok V V P G build HG t vs d2 (build t) [v] w2 _ HR2 HO2 Hsa) as (d3 & w3 & HE3 & HR3 & HO3 & Ht3).
      { change (lenN [v]) with 1. destruct Hvs; [left; lia|now right]. }
      rewrite HE3. do 2 eexists. csplit; [reflexivity|now shw|congruence].
    + exfalso. destruct Hroom' as [?|Hg]; [lia|]. unfold growth_fits in Hg. lia.
    + exfalso. destruct Hbad as (H3 & H1 & _). lia.
  - exfalso. change (lenN [v]) with 1 in *. lia.
  - exfalso. destruct Hbad as (H3 & H1 & _). lia.
Qed.

Lemma c11_mixed_types_panic_fact :
  forall (V : Type) (P : profile) (G : tenv) (build : tyid -> V), wf_tenv G ->
  forall b w t xs hint vals,
  live_buffer P G build b w -> shows G b t xs ->
  Exists (fun p => fst p <> t) vals ->
  is_panic (fst (fst (vc_extend P hint (map (fun p => mk_ref G build (fst p) (snd p)) vals) b w))).
Proof.
  intros V P G build HG b w t xs hint vals Hb Hs Hex. live Hb Hs HR Hc l HO.
  assert (Hst : same_type t vals = false).
  { unfold same_type. induction Hex as [p vals Hp|p vals _ IH]; cbn [forallb].
    - apply N.eqb_neq in Hp. unfold tyid in *. now rewrite Hp.
    - rewrite IH. apply andb_false_r. }
  change (map (fun p => mk_ref G build (fst p) (snd p)) vals) with (refs G build vals).
  pose proof (vc_extend_post P G HG build t d vt xs hint vals w l HR HO) as HX.
  inversion HX as [d' w' Hst' _ _ HE|p pre t1 v1 rest d' w' _ _ _ _ _ HE|p d' w' leak _ _ _ HE];
    [congruence|exact I|exact I].
Qed.

(** ** C12 *)

Lemma c12_append_partial_fact :
  forall (V : Type) (P : profile) (G : tenv) (build : tyid -> V), wf_tenv G ->
  forall b b' w t xs ys,
  live_pair P G build b b' w -> shows G b t xs -> shows G b' t ys ->
  room G t (vc_capacity b) (lenN xs + lenN ys) ->
  ~ odd_growth G t (vc_capacity b) (lenN xs + lenN ys) ->
  exists b1 b1' w',
    vc_append P b b' w = (Ret true, b1, b1', w') /\
    shows G b1 t (xs ++ ys) /\ shows G b1' t [] /\ vc_capacity b1' = vc_capacity b' /\
    w_trace w' = w_trace w.
Proof.
  intros V P G build HG b b' w t xs ys Hp Hs Hs' Hroom Hodd.
  destruct (live_pair_rep P G HG build b b' w t xs t ys Hp Hs Hs') as (HR & HR' & _ & _ & l & HO).
  destruct b as [d vt], b' as [d' vt']. unfold vc_capacity in *. cbn [vc_data] in *.
  unfold vc_append. rewrite (vc_type_rep G _ _ _ _ HR), (vc_type_rep G _ _ _ _ HR'), N.eqb_refl.
  cbn [vc_data vc_vtable].
  pose proof (vv_append_rep P G HG t d d' xs ys w l HR HR' HO) as Hres.
  rewrite <- lenN_app in *.
  inversion Hres as [d1 d2 w' HR1 HR2 Hcap Hblk Hcap1 HO' Htr _ HE|w' Hlt Hmax HO' Htr HE|d2 w' i Hbad HR2 Hcap Hblk HO' Htr HE].
  - cbn [obind]. do 3 eexists. csplit; [reflexivity|now shw|now shw|exact Hcap|exact Htr].
  - exfalso. destruct Hroom as [?|Hg]; [lia|]. unfold growth_fits in Hg. lia.
  - exfalso. now apply Hodd.
Qed.

Lemma c12_append_other_type_fact :
  forall (V : Type) (P : profile) (G : tenv) (build : tyid -> V), wf_tenv G ->
  forall b b' w t xs t' ys,
  live_pair P G build b b' w -> shows G b t xs -> shows G b' t' ys -> t' <> t ->
  vc_append P b b' w = (Ret false, b, b', w).
Proof.
  intros V P G build HG b b' w t xs t' ys Hp Hs Hs' Hne.
  destruct (live_pair_rep P G HG build b b' w t xs t' ys Hp Hs Hs') as (HR & HR' & _ & _ & l & HO).
  destruct b as [d vt], b' as [d' vt']. cbn [vc_data] in *.
  unfold vc_append. rewrite (vc_type_rep G _ _ _ _ HR), (vc_type_rep G _ _ _ _ HR').
  apply N.eqb_neq in Hne. now rewrite Hne.
Qed.
