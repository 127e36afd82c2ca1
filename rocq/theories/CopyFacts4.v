(** * CopyFacts4: further facts about copyable elements: raw buffers, writes through views,
    upcasts of references and slices, copying slices into vectors. *)

From Verif Require Export UpcastFacts.
From Verif Require Import CopyFacts2 SliceFacts.

(** ** C62: [clone_from] on raw buffers *)

Section CloneFrom.
Context (P : profile) (G : tenv) (HG : wf_tenv G).

Lemma vv_clone_from_rep t d xs ds ys w l :
  Rep G t d xs -> Rep G t ds ys -> Owns w (vv_own d ++ l) ->
  grow_result G t d ys w l (vv_clone_from P ds d w).
Proof.
  intros H HS HO. unfold vv_clone_from. rewrite (rep_elem _ _ _ _ H).
  change (e_alignment (elem_new G t)) with (t_align (G t)).
  rewrite eval_align_legal by apply (wf_types G HG t).
  rewrite (aligned_vec_rep P G HG t ds ys HS).
  pose proof (wf_align_pos G t HG) as Ha. pose proof (chunks_size G HG t) as Hs.
  cbn [carrier v_len v_blk v_cap v_bytes].
  rewrite (rep_bytes _ _ _ _ HS), (rep_len _ _ _ _ HS).
  assert (Hb : lenN (encs G t ys) = lenN ys * chunks_of G t * t_align (G t)).
  { rewrite encs_length, Hs. lia. }
  rewrite <- Hb, N.ltb_irrefl, firstnN_all by lia.
  pose (d0 := VecVoid (vv_blk d) 0 (vv_cap d) (elem_new G t) []).
  assert (H0 : Rep G t d0 []).
  { destruct H. split; cbn; try assumption; try reflexivity; lia. }
  assert (HO0 : Owns w (vv_own d0 ++ l)).
  { unfold d0, vv_own in *. cbn [vv_blk vv_cap vv_elem]. now rewrite (rep_elem _ _ _ _ H) in HO. }
  pose proof (dispatch_rep P G HG t d xs
     (fun tk => v_clone_from tk tk (SVec (vv_blk ds) (lenN ys * chunks_of G t) (vv_cap ds * chunks_of G t) (encs G t ys))) w H) as HD.
  unfold dispatch in HD. rewrite (rep_elem _ _ _ _ H) in HD.
  change (e_alignment (elem_new G t)) with (t_align (G t)) in HD.
  rewrite eval_align_legal in HD by apply (wf_types G HG t). rewrite HD. clear HD.
  unfold v_clone_from. cbn [v_len v_bytes].
  replace (v_clear (carrier G t d)) with (carrier G t d0) by reflexivity.
  destruct (carrier_reserve G HG t d0 [] (lenN ys) w l H0 HO0)
    as [[Hle HE]|[Hgt [(b & w' & c & HE & Hc1 & Hc2 & Hc3 & Hbn & HO' & Ht & Hcg)
                      |[(Hbad & i & w' & HE & HO' & Ht)|(HE & Hcap)]]]]; rewrite HE;
    change (lenN (@nil payload)) with 0 in *; rewrite ?N.add_0_l in *;
    change (vv_cap d0) with (vv_cap d) in *.
  - cbn [carrier v_blk v_cap]. unfold d0. cbn [vv_blk vv_cap].
    destruct (rebuild P G HG t ys (vv_blk d) (vv_cap d)) as (HF & HR & HOw); try apply H; [exact Hle|].
    rewrite HF. apply GR_ok; cbn; try assumption; try lia; auto.
  - cbn [v_blk v_cap].
    destruct (rebuild P G HG t ys b c) as (HF & HR & HOw); try assumption; try apply H.
    { pose proof (rep_cap1 _ _ _ _ H). lia. }
    rewrite HF. apply GR_ok; cbn; try assumption; try lia; [now rewrite HOw|now right].
  - cbn [v_blk v_cap]. rewrite (bad_growth_override P G t _ _ _ _ _ Hbad).
    2:{ destruct Hbad as (Hs3 & Ha1 & _). pose proof (rep_no_overflow G HG t ds ys HS) as (H1 & _).
        rewrite (rep_len _ _ _ _ HS) in H1. unfold chunks_of in *. rewrite Hs3, Ha1 in *. change (3 / 1) with 3 in *. lia. }
    eapply GR_bad; eassumption.
  - destruct (v_drop_ok (t_align (G t)) (t_align (G t)) (carrier G t d0) w l) as (w' & -> & HO' & Ht).
    { apply (carrier_ok G HG _ _ _ H0). } { now rewrite (carrier_own G HG _ _ _ H0). }
    cbn [unwind]. now apply GR_capacity.
Qed.
End CloneFrom.

Lemma c62_clone_from_partial_fact :
  forall (V : Type) (P : profile) (G : tenv) (build : tyid -> V), wf_tenv G ->
  forall b b' w t xs ys,
  live_pair P G build b b' w -> shows G b t xs -> shows G b' t ys ->
  room G t (vc_capacity b) (lenN ys) -> ~ odd_growth G t (vc_capacity b) (lenN ys) ->
  exists d w',
    vv_clone_from P (fst (vc_into_raw_parts b')) (fst (vc_into_raw_parts b)) w = (Ret tt, d, w') /\
    shows G (vc_from_raw_parts d (snd (vc_into_raw_parts b))) t ys /\
    vc_capacity b <= vv_cap d /\ w_trace w' = w_trace w.
Proof.
  intros V P G build HG b b' w t xs ys Hp Hs Hs' Hroom Hodd.
  destruct (live_pair_rep P G HG build b b' w t xs t ys Hp Hs Hs') as (HR & HR' & _ & _ & l & HO).
  destruct b as [d vt], b' as [d' vt']. unfold vc_capacity in *. cbn [vc_data] in *.
  unfold vc_into_raw_parts, vc_from_raw_parts. cbn [fst snd vc_data vc_vtable].
  pose proof (vv_clone_from_rep P G HG t d xs d' ys w _ HR HR' HO) as Hres.
  inversion Hres as [d1 w' HR1 Hcap _ HO' Htr _ HE|w' Hlt Hmax HO' Htr HE|w' i Hbad HO' Htr HE].
  - do 2 eexists. csplit; [reflexivity|now shw|exact Hcap|exact Htr].
  - exfalso. destruct Hroom as [?|Hg]; [lia|]. unfold growth_fits in Hg. lia.
  - exfalso. now apply Hodd.
Qed.

(** ** C24: writes through typed mutable slices, mutable iterators, halves and chunks *)

Lemma nth_mapi_from {A B} (f : nat -> A -> B) : forall l k i,
  nth_error (mapi_from k f l) i = option_map (f (k + i)%nat) (nth_error l i).
Proof.
  induction l as [|x l IH]; intros k [|i]; cbn; try reflexivity.
  - now rewrite Nat.add_0_r.
  - rewrite IH. now replace (S k + i)%nat with (k + S i)%nat by lia.
Qed.

Lemma c24_update_fact :
  forall (V : Type) (P : profile) (G : tenv), wf_tenv G ->
  forall t xs (vt : V) t' f,
  slice_ok G t xs ->
  (t' = t ->
   exists ys, slm_update P G t' f (sl_from_slice G t xs vt) = (Ret true, sl_from_slice G t ys vt) /\
     forall i, nthN ys i = option_map (f (N.to_nat i)) (nthN xs i)) /\
  (t' <> t ->
   slm_update P G t' f (sl_from_slice G t xs vt) = (Ret false, sl_from_slice G t xs vt)).
Proof.
  intros V P G HG t xs vt t' f Hok. pose proof (slice_srep G t xs vt Hok) as HS.
  rewrite (slm_update_rep P G HG t _ xs t' f HS). split.
  - intros ->. rewrite N.eqb_refl. exists (mapi f xs). split; [reflexivity|].
    intros i. unfold nthN, mapi. rewrite nth_mapi_from. reflexivity.
  - intros Hne. apply N.eqb_neq in Hne. now rewrite Hne.
Qed.

Lemma c24_iter_copy_fact :
  forall (V U : Type) (P : profile) (G : tenv), wf_tenv G ->
  forall t xs (vt : V) t' v (vt' : U),
  slice_ok G t xs ->
  slm_iter_copy (copy_ref_new G t' v vt') (sl_from_slice G t xs vt) =
  (Ret tt, sl_from_slice G t (if t' =? t then map (fun _ => v) xs else xs) vt).
Proof.
  intros V U P G HG t xs vt t' v vt' Hok. pose proof (slice_srep G t xs vt Hok) as HS.
  rewrite (slm_iter_copy_rep G HG t _ xs t' v vt' HS). unfold sl_vals, sl_from_slice. cbn [sl_elem sl_vtable].
  destruct (t' =? t); [|reflexivity]. do 3 f_equal. clear. induction xs; cbn; congruence.
Qed.

(** The two halves of a split: their offsets, and where writes through them land. *)
Lemma c24_split_write_fact :
  forall (V : Type) (P : profile) (G : tenv), wf_tenv G ->
  forall t xs (vt : V) k,
  slice_ok G t xs -> k <= lenN xs ->
  exists l off r, sl_split_at P k (sl_from_slice G t xs vt) = Ret (l, off, r) /\
    (forall ys l', lenN ys = k -> sl_data l' = encs G t ys ->
       sl_put 0 l' (sl_from_slice G t xs vt) = sl_from_slice G t (ys ++ skipnN k xs) vt) /\
    (forall ys r', lenN ys = lenN xs - k -> sl_data r' = encs G t ys ->
       sl_put off r' (sl_from_slice G t xs vt) = sl_from_slice G t (firstnN k xs ++ ys) vt).
Proof.
  intros V P G HG t xs vt k Hok Hk. pose proof (slice_srep G t xs vt Hok) as HS.
  rewrite (sl_split_at_rep P G HG t _ xs k HS Hk). do 3 eexists. csplit; [reflexivity| |].
  - intros ys l' Hl Hd. unfold sl_put, sl_write, sl_from_slice. rewrite Hd. cbn [sl_data sl_elem sl_vtable].
    change 0 with (0 * t_size (G t)). rewrite splice_encs by lia. rewrite N.add_0_l, Hl. reflexivity.
  - intros ys l' Hl Hd. unfold sl_put, sl_write, sl_from_slice. rewrite Hd. cbn [sl_data sl_elem sl_vtable].
    rewrite splice_encs by lia. replace (k + lenN ys) with (lenN xs) by lia.
    now rewrite skipnN_all, app_nil_r by lia.
Qed.

(** Writes through the [i]-th chunk of [chunks_exact_mut(k)]. *)
Lemma c24_chunk_write_fact :
  forall (V : Type) (G : tenv), wf_tenv G ->
  forall t xs (vt : V) k i ys c,
  slice_ok G t xs -> (i + 1) * k <= lenN xs -> lenN ys = k -> sl_data c = encs G t ys ->
  sl_put (i * (t_size (G t) * k)) c (sl_from_slice G t xs vt) =
  sl_from_slice G t (firstnN (i * k) xs ++ ys ++ skipnN ((i + 1) * k) xs) vt.
Proof.
  intros V G HG t xs vt k i ys c Hok Hi Hl Hd. unfold sl_put, sl_write, sl_from_slice. rewrite Hd.
  cbn [sl_data sl_elem sl_vtable]. replace (i * (t_size (G t) * k)) with (i * k * t_size (G t)) by lia.
  rewrite splice_encs by lia. now replace (i * k + lenN ys) with ((i + 1) * k) by lia.
Qed.

(** ** C16 *)
Lemma c16_slice_is_empty_fact :
  forall (V : Type) (P : profile) (G : tenv), wf_tenv G ->
  forall t xs (vt : V), slice_ok G t xs ->
  sl_len P (sl_from_slice G t xs vt) = Ret (lenN xs) /\
  (sl_is_empty (sl_from_slice G t xs vt) = true <-> xs = []).
Proof.
  intros V P G HG t xs vt Hok. pose proof (slice_srep G t xs vt Hok) as HS. split.
  - now rewrite (sl_len_rep P G HG t _ xs HS).
  - unfold sl_is_empty, sl_from_slice. cbn [sl_data]. rewrite N.eqb_eq, encs_length.
    destruct Hok as [Hz _]. split; [|intros ->; reflexivity].
    intros H. destruct xs; [reflexivity|]. rewrite lenN_cons in H. nia.
Qed.

(** ** C25: upcasting references and slices *)

Lemma c25_ref_upcast_fact :
  forall (V U : Type) (G : tenv) (f : V -> U) (r : copy_ref V),
  cr_type_id (cr_upcast f r) = cr_type_id r /\ cr_vtable (cr_upcast f r) = f (cr_vtable r) /\
  cr_size (cr_upcast f r) = cr_size r /\
  (forall t, cr_downcast G t (cr_upcast f r) = cr_downcast G t r) /\
  (forall (W : Type) (m : copy_mut W), cm_copy m (cr_upcast f r) = cm_copy m r) /\
  (forall P w (W : Type) (b : veccopy W), vc_push P (cr_upcast f r) b w = vc_push P r b w) /\
  meta_of_copy_ref (cr_upcast f r) =
    Meta (m_elem (meta_of_copy_ref r)) (f (m_vtable (meta_of_copy_ref r))).
Proof. intros V U G f [bs t al vt]. csplit; reflexivity. Qed.

Lemma c25_mut_upcast_fact :
  forall (V U : Type) (G : tenv) (f : V -> U) (m : copy_mut V),
  cm_type_id (cm_upcast f m) = cm_type_id m /\
  cr_of_cm (cm_upcast f m) = cr_upcast f (cr_of_cm m) /\
  (forall t, cm_downcast G t (cm_upcast f m) = cm_downcast G t m) /\
  (forall (W : Type) (r : copy_ref W),
     cm_copy (cm_upcast f m) r =
     match cm_copy m r with
     | Ret (Some m') => Ret (Some (cm_upcast f m')) | Ret None => Ret None
     | Panic p => Panic p | UB u => UB u | Abort => Abort
     end) /\
  (forall (W : Type) (m2 : copy_mut W),
     cm_swap (cm_upcast f m) m2 =
     let '(o, m', m2') := cm_swap m m2 in (o, cm_upcast f m', m2')).
Proof.
  intros V U G f [bs t al vt]. csplit; try reflexivity.
  - intros W [bs' t' al' vt']. unfold cm_copy, bytes_copy_from_slice, cm_upcast.
    cbn [cm_type_id cm_bytes cr_type_id cr_bytes]. destruct (t =? t'); [|reflexivity].
    now destruct (_ =? _).
  - intros W [bs' t' al' vt']. unfold cm_swap, cm_upcast.
    cbn [cm_type_id cm_bytes cm_alignment]. destruct (t =? t'); [|reflexivity].
    now destruct (lenN bs =? lenN bs').
Qed.

Lemma c25_slice_upcast_fact :
  forall (V U : Type) (P : profile) (G : tenv) (f : V -> U), 
  forall t xs (vt : V), sl_upcast f (sl_from_slice G t xs vt) = sl_from_slice G t xs (f vt).
Proof. reflexivity. Qed.

(** ** C56: copying a slice into a new typed vector *)

Lemma c56_slice_copy_into_vec_fact :
  forall (V : Type) (P : profile) (G : tenv), wf_tenv G ->
  forall t xs (vt : V) w, slice_ok G t xs -> wf_world w ->
  N.max (lenN xs) (min_non_zero_cap (t_size (G t))) * t_size (G t) <= max_alloc (t_align (G t)) ->
  (exists vec w', sl_copy_into_vec P G t (sl_from_slice G t xs vt) w = (Ret (Some vec), w') /\
     vec_elems G t vec = Ret xs /\ w_trace w' = w_trace w) /\
  forall t', t' <> t -> sl_copy_into_vec P G t' (sl_from_slice G t xs vt) w = (Ret None, w).
Proof.
  intros V P G HG t xs vt w Hok Hw Hroom. pose proof (slice_srep G t xs vt Hok) as HS.
  pose proof (proj1 Hok) as Hz. unfold sl_copy_into_vec, sl_append_copy_to_vec. split.
  - rewrite (sl_as_slice_rep P G HG t _ xs t HS). unfold typed. rewrite N.eqb_refl.
    assert (HO : Owns w (v_own (t_size (G t)) (t_align (G t)) svec_nil ++ w_live w)) by now split.
    destruct (v_reserve_spec (t_size (G t)) (t_align (G t)) (lenN xs) svec_nil w _ Hz
                (svec_nil_ok (t_size (G t)) (t_align (G t))) HO)
      as [[Hle HE1]|[Hgt [(b1 & w2 & HE1 & _ & _ & _ & _ & Ht1)|[HE1 Hcap]]]]; rewrite HE1.
    + do 2 eexists. csplit; [reflexivity| |reflexivity].
      unfold vec_elems. cbn [v_len v_bytes svec_nil app]. rewrite N.add_0_l. now apply read_vals_encs'.
    + do 2 eexists. csplit; [reflexivity| |exact Ht1].
      unfold vec_elems. cbn [v_len v_bytes svec_nil app]. rewrite N.add_0_l. now apply read_vals_encs'.
    + exfalso. unfold grow_cap in Hcap. cbn [v_len v_cap svec_nil] in Hcap.
      pose proof isize_lt_usize. unfold max_alloc in *. destruct Hcap as [Hc|Hc]; nia.
  - intros t' Hne. rewrite (sl_as_slice_rep P G HG t _ xs t' HS). unfold typed.
    apply N.eqb_neq in Hne. rewrite Hne. reflexivity.
Qed.
