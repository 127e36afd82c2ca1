(** * CopyFacts: proofs of the property theorems about [VecCopy] and [SliceCopy]. *)

From Verif Require Export ReachProofs LedgerProofs.

Ltac live Hb Hs HR Hc l HO :=
  match type of Hb with
  | live_buffer ?P ?G ?build ?b ?w =>
      destruct (live_rep P G ltac:(assumption) build b w _ _ Hb Hs) as (HR & Hc & l & HO);
      destruct b as [d vt]; cbn [vc_data vc_vtable] in *
  end.

Ltac shw := match goal with
  | |- shows _ (VecCopy _ _) _ _ => apply rep_shows; cbn [vc_data]
  | |- shows _ _ _ _ => apply rep_shows
  end.

(** ** C01 *)

Lemma c01_vec_round_trip_fact :
  forall (V : Type) (P : profile) (G : tenv) (build : tyid -> V), wf_tenv G ->
  forall t cap xs w vec w1,
  wf_world w -> t_size (G t) <> 0 ->
  vec_make G t cap xs w = (Ret vec, w1) ->
  exists b w2,
    vc_from_vec G t vec (build t) w1 = (Ret b, w2) /\
    vc_len b = lenN xs /\ vc_element_type_id b = t /\
    exists vec',
      vc_into_vec P G t b w2 = (Ret (Some vec'), w2) /\
      vec_elems G t vec' = Ret xs /\
      v_cap vec <= v_cap vec' /\
      w_trace w2 = w_trace w1 /\
      (v_cap vec <> 0 -> vec' = vec /\ w2 = w1).
Proof.
  intros V P G build HG t cap xs w vec w1 Hw Hz Hm.
  destruct (vec_make_spec G t cap xs w (w_live w) Hz) as [(b & w' & HE & Hok & HO & Ht)|[HE _]];
    [now split| |congruence].
  rewrite HE in Hm. injection Hm as <- <-.
  destruct (vc_from_vec_any G HG t b (N.max cap (lenN xs)) xs (build t) w' _ Hz Hok HO)
    as (d & w2 & HF & HR & HO2 & Ht2 & Hc2 & Hsame).
  exists (VecCopy d (build t)), w2. csplit; [exact HF|apply HR|exact (vc_type_rep G _ _ _ _ HR)|].
  exists (SVec (vv_blk d) (lenN xs) (vv_cap d) (encs G t xs)). csplit.
  - unfold vc_into_vec. rewrite (vc_check_rep G _ _ _ _ _ HR), N.eqb_refl. cbn [vc_data].
    now rewrite (into_vec_unchecked_rep P G HG _ _ _ HR).
  - unfold vec_elems. cbn [v_len v_bytes]. now apply read_vals_encs'.
  - exact Hc2.
  - exact Ht2.
  - cbn [v_cap]. intros Hne. destruct Hsame as (-> & Hcap & Hblk); [lia|]. now rewrite Hcap, Hblk.
Qed.

Lemma c01_into_vec_fact :
  forall (V : Type) (P : profile) (G : tenv) (build : tyid -> V), wf_tenv G ->
  forall b w t xs,
  live_buffer P G build b w -> shows G b t xs ->
  exists vec,
    vc_into_vec P G t b w = (Ret (Some vec), w) /\ vec_elems G t vec = Ret xs /\
    v_blk vec = vv_blk (vc_data b) /\ v_len vec = vc_len b /\ v_cap vec = vc_capacity b.
Proof.
  intros V P G build HG b w t xs Hb Hs. live Hb Hs HR Hc l HO.
  destruct (into_vec_rep P G HG t _ vt xs w l HR Hc HO) as (vec & w' & HE & H1 & H2 & H3 & H4 & _).
  exists vec. csplit; try assumption. rewrite H3. symmetry. apply HR.
Qed.

(** ** C02 *)

Lemma c02_wrong_type_refused_fact :
  forall (V : Type) (P : profile) (G : tenv) (build : tyid -> V), wf_tenv G ->
  forall b w t xs t',
  live_buffer P G build b w -> shows G b t xs -> t' <> t ->
  vc_check t' b = false /\
  (forall v, vc_push_as P G t' v b w =
             let '(o, w') := drop_val G t' v w in (let! _ := o in Ret false, b, w')) /\
  (forall n v, vc_resize P G t' n v b w = (Ret false, b, w)) /\
  (forall v, vc_fill G t' v b = (Ret false, b)) /\
  (forall f, vc_as_mut_slice_as G t' f b = (Ret false, b)) /\
  (forall vs, vc_copy_from_slice P G t' vs b = (Ret false, b)) /\
  vc_as_slice_as G t' b = Ret None /\
  (forall i, i < lenN xs -> vc_get_as G t' i b = Ret None) /\
  (forall i v, i < lenN xs -> vc_set_as G t' i v b = (Ret false, b)) /\
  (forall vec, vc_append_copy_to_vec G t' b vec w = (Ret false, vec, w)) /\
  vc_copy_into_vec G t' b w = (Ret None, w) /\
  fst (vc_into_vec P G t' b w) = Ret None.
Proof.
  intros V P G build HG b w t xs t' Hb Hs Hne. live Hb Hs HR Hc l HO.
  apply N.eqb_neq in Hne as Hneb.
  assert (HC : vc_check t' (VecCopy d vt) = false).
  { now rewrite (vc_check_rep G _ _ _ _ _ HR). }
  assert (HA : vc_as_slice_as G t' (VecCopy d vt) = Ret None).
  { unfold vc_as_slice_as. now rewrite HC. }
  csplit.
  - exact HC.
  - intros v. unfold vc_push_as. rewrite HC. now destruct (drop_val G t' v w).
  - intros n v. unfold vc_resize. now rewrite HC.
  - intros v. unfold vc_fill, vc_as_mut_slice_as. now rewrite HC.
  - intros f. unfold vc_as_mut_slice_as. now rewrite HC.
  - intros vs. unfold vc_copy_from_slice.
    destruct (with_mut_slice_same P G HG t _ vt xs (slm_copy_from_slice P G t' vs) HR)
      as (s & a & HS & Ha & ->).
    { intros s HS. rewrite (slm_copy_from_slice_rep P G HG t s xs _ _ HS), Hneb. eauto. }
    rewrite (slm_copy_from_slice_rep P G HG t s xs _ _ HS), Hneb in Ha. now injection Ha as <-.
  - exact HA.
  - intros i Hi. rewrite (get_as_rep G _ _ _ _ _ _ HR). destruct (lenN_nth xs i Hi) as [x ->].
    unfold typed. now rewrite Hneb.
  - intros i v Hi. rewrite (set_as_rep G _ _ _ _ _ _ _ HR). apply N.ltb_lt in Hi. now rewrite Hi, Hneb.
  - intros vec. unfold vc_append_copy_to_vec. now rewrite HA.
  - unfold vc_copy_into_vec, vc_append_copy_to_vec. rewrite HA. now rewrite vec_drop_nil.
  - destruct (into_vec_other P G HG t t' _ vt xs w l HR Hne HO) as (w' & -> & _). reflexivity.
Qed.

Lemma c02_right_type_accepted_fact :
  forall (V : Type) (P : profile) (G : tenv) (build : tyid -> V), wf_tenv G ->
  forall b w t xs,
  live_buffer P G build b w -> shows G b t xs ->
  vc_check t b = true /\
  (forall v, fst (fst (vc_push_as P G t v b w)) <> Ret false) /\
  (forall n v, fst (fst (vc_resize P G t n v b w)) <> Ret false) /\
  (forall v, fst (vc_fill G t v b) = Ret true) /\
  (forall f, fst (vc_as_mut_slice_as G t f b) = Ret true) /\
  (forall vs, fst (vc_copy_from_slice P G t vs b) <> Ret false) /\
  (forall i, i < lenN xs -> exists v, vc_get_as G t i b = Ret (Some v)) /\
  (forall i v, i < lenN xs -> fst (vc_set_as G t i v b) = Ret true) /\
  (forall vec, fst (fst (vc_append_copy_to_vec G t b vec w)) <> Ret false) /\
  fst (vc_copy_into_vec G t b w) <> Ret None /\
  (exists vec, fst (vc_into_vec P G t b w) = Ret (Some vec)).
Proof.
  intros V P G build HG b w t xs Hb Hs. live Hb Hs HR Hc l HO.
  assert (HC : vc_check t (VecCopy d vt) = true).
  { rewrite (vc_check_rep G _ _ _ _ _ HR). apply N.eqb_refl. }
  assert (HA : vc_as_slice_as G t (VecCopy d vt) = Ret (Some xs)).
  { rewrite (as_slice_as_rep G _ _ _ _ _ HR). unfold typed. now rewrite N.eqb_refl. }
  assert (HV : forall vec, fst (fst (vc_append_copy_to_vec G t (VecCopy d vt) vec w)) <> Ret false).
  { intros vec. unfold vc_append_copy_to_vec. rewrite HA.
    destruct (v_reserve _ _ (vc_len _) vec w) as [[[u|p|u|] v1] w1]; cbn; try congruence.
    destruct (v_reserve _ _ (lenN xs) v1 w1) as [[[u'|p|u'|] v2] w2]; cbn; congruence. }
  csplit.
  - exact HC.
  - intros v. unfold vc_push_as. rewrite HC. destruct (on_data _ _ _) as [[[u|p|u|] b'] w']; cbn; congruence.
  - intros n v. unfold vc_resize. rewrite HC. destruct (_ <=? _).
    + destruct (vc_reserve _ _ _ _) as [[[u|p|u|] b'] w']; cbn; try congruence.
      destruct (vc_push_n _ _ _ _ _ _ _) as [[[u'|p|u'|] b2] w2]; cbn; congruence.
    + destruct (on_data _ _ _) as [[[u|p|u|] b'] w']; cbn; congruence.
  - intros v. unfold vc_fill. rewrite (as_mut_slice_as_rep G _ _ _ _ _ _ HR). now rewrite N.eqb_refl.
  - intros f. rewrite (as_mut_slice_as_rep G _ _ _ _ _ _ HR). now rewrite N.eqb_refl.
  - intros vs. unfold vc_copy_from_slice, vc_with_mut_slice.
    destruct (vc_as_slice_rep P G HG t d vt xs HR) as (s & -> & HS & _).
    rewrite (slm_copy_from_slice_rep P G HG t s xs _ _ HS), N.eqb_refl.
    destruct (_ =? _); cbn; congruence.
  - intros i Hi. rewrite (get_as_rep G _ _ _ _ _ _ HR). destruct (lenN_nth xs i Hi) as [x ->].
    unfold typed. rewrite N.eqb_refl. eauto.
  - intros i v Hi. rewrite (set_as_rep G _ _ _ _ _ _ _ HR). apply N.ltb_lt in Hi. now rewrite Hi, N.eqb_refl.
  - exact HV.
  - unfold vc_copy_into_vec. specialize (HV svec_nil).
    destruct (vc_append_copy_to_vec _ _ _ _ _) as [[[[|]|p|u|] v1] w1]; cbn in *; try congruence.
    destruct (vec_drop G t v1 w1) as [[u|q|u|] w2]; cbn; congruence.
  - destruct (into_vec_rep P G HG t _ vt xs w l HR Hc HO) as (vec & w' & -> & _). cbn. eauto.
Qed.

(** ** C03, C04, C05: histories *)

Lemma c03_list_refinement_partial_fact :
  forall (V : Type) (P : profile) (G : tenv) (build : tyid -> V), wf_tenv G ->
  forall prog rs st,
  Forall (step_typed G) prog -> in_range P G build prog c_init ->
  run P G build prog c_init = (map Ret rs, st) ->
  exists lst,
    list_run G prog [] = Some (rs, lst) /\
    List.length lst = List.length (c_store st) /\
    forall h,
      match nth_error lst h with
      | Some (Some (t, xs)) =>
          exists b, get st h = Some b /\ shows G b t xs /\
                    vc_element_type_id b = t /\ vc_len b = lenN xs
      | _ => get st h = None
      end.
Proof.
  intros V P G build HG prog rs st Hty Hin HE.
  destruct (run_inv P G HG build prog c_init [] (inv_init G) Hty Hin) as (leak & _ & _ & _ & HRet).
  rewrite HE in HRet. cbn [fst snd] in HRet. destruct (HRet rs eq_refl) as [_ HF].
  destruct (HF []) as (lst & HL & HR); [constructor|].
  exists lst. csplit; [exact HL|clear -HR; induction HR; cbn; congruence|].
  intros h. unfold get. destruct (nth_error (c_store st) h) as [s|] eqn:En.
  - destruct (Forall2_nth _ _ _ _ _ HR En) as (y & -> & Hs). destruct s as [b|], y as [[t xs]|]; try contradiction.
    + exists b. destruct Hs as [HRep Hc]. csplit.
      * reflexivity.
      * now apply rep_shows.
      * exact (rep_type G _ _ _ HRep).
      * apply HRep.
    + reflexivity.
  - now rewrite (Forall2_nth_none _ _ _ _ HR En).
Qed.

Lemma c04_memory_ledger_fact :
  forall (V : Type) (P : profile) (G : tenv) (build : tyid -> V), wf_tenv G ->
  forall prog,
  Forall (step_typed G) prog ->
  let '(rs, st) := run P G build prog c_init in
  ~ In (UB UbDealloc) rs /\ ~ In Abort rs /\
  ((forall u, ~ In (UB u) rs) ->
   exists lost,
    Permutation (w_live (c_world st)) (owned_blocks st ++ lost) /\
    NoDup (map fst (w_live (c_world st))) /\
    (Forall is_ret rs -> lost = [])).
Proof.
  intros V P G build HG prog Hty.
  assert (H0 : sinv (V := V) G c_init []) by (split; [constructor|apply Owns_w0]).
  destruct (run_fine P G HG build prog c_init [] H0 Hty) as [HS HL].
  destruct (run P G build prog c_init) as [rs st]. cbn [fst snd] in *.
  rewrite Forall_forall in HS. csplit.
  - intros Hu. now apply (HS _ Hu).
  - intros Hu. exact (HS _ Hu).
  - intros Hu. destruct (HL Hu) as (leak & [_ [HW HP]] & HRet). rewrite app_nil_r in HP.
    exists leak. csplit; [exact HP|apply HW|]. intros HF. apply HRet. eapply Forall_impl; [|exact HF].
    intros [r|p|u|]; try contradiction. eauto.
Qed.

Lemma c05_no_undefined_behaviour_partial_fact :
  forall (V : Type) (P : profile) (G : tenv) (build : tyid -> V), wf_tenv G ->
  forall prog,
  Forall (step_typed G) prog -> in_range P G build prog c_init ->
  List.length (fst (run P G build prog c_init)) = List.length prog /\
  Forall (fun o => is_ret o \/ is_panic o) (fst (run P G build prog c_init)).
Proof.
  intros V P G build HG prog Hty Hin.
  destruct (run_inv P G HG build prog c_init [] (inv_init G) Hty Hin) as (leak & HI & HS & HL & _).
  split; [exact HL|]. eapply Forall_impl; [|exact HS]. intros [r|p|u|]; cbn; tauto.
Qed.

(** ** C06 *)

Lemma c06_get_in_bounds_fact :
  forall (V : Type) (P : profile) (G : tenv) (build : tyid -> V), wf_tenv G ->
  forall b w t xs i v,
  live_buffer P G build b w -> shows G b t xs -> nthN xs i = Some v ->
  (exists r, vc_get_ref P i b = Ret r /\ cr_downcast G t r = Ret (Some v) /\
             forall t', t' <> t -> cr_downcast G t' r = Ret None) /\
  (forall v', exists b', vc_get_mut_copy P i (mk_ref G build t v') b = (Ret true, b') /\
                         shows G b' t (list_set xs (N.to_nat i) v')) /\
  (forall t' v', t' <> t -> vc_get_mut_copy P i (mk_ref G build t' v') b = (Ret false, b)).
Proof.
  intros V P G build HG b w t xs i v Hb Hs Hi. live Hb Hs HR Hc l HO. csplit.
  - exists (elem_ref G t vt v). csplit.
    + now rewrite (get_ref_rep P G HG _ _ _ _ _ _ HR Hi).
    + rewrite elem_downcast by apply HR. unfold typed. now rewrite N.eqb_refl.
    + intros t' Hne. rewrite elem_downcast by apply HR. apply N.eqb_neq in Hne. unfold typed. now rewrite Hne.
  - intros v'. unfold mk_ref. rewrite (get_mut_copy_rep P G HG _ _ _ _ _ _ _ _ _ HR Hi), N.eqb_refl.
    eexists. split; [reflexivity|]. shw. apply (with_vals_rep G t _ xs _ HR). apply lenN_list_set.
  - intros t' v' Hne. unfold mk_ref. rewrite (get_mut_copy_rep P G HG _ _ _ _ _ _ _ _ _ HR Hi).
    apply N.eqb_neq in Hne. now rewrite Hne.
Qed.

Lemma c06_get_out_of_bounds_partial_fact :
  forall (V : Type) (P : profile) (G : tenv) (build : tyid -> V), wf_tenv G ->
  forall b w t xs i,
  live_buffer P G build b w -> shows G b t xs -> lenN xs <= i -> debug_assertions P = true ->
  vc_get_ref P i b = Panic PDebugAssert /\ vc_get_mut P i b = Panic PDebugAssert.
Proof.
  intros V P G build HG b w t xs i Hb Hs Hi Hd. live Hb Hs HR Hc l HO.
  exact (get_debug P G t _ vt xs i HR Hi Hd).
Qed.
