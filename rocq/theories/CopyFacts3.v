(** * CopyFacts3: proofs of the property theorems about [VecCopy], continued (C11-C20, C26, C27). *)

From Verif Require Export CopyFacts2.

Lemma c11_extend_never_works_fact :
  forall (V : Type) (P : profile) (G : tenv) (build : tyid -> V), wf_tenv G ->
  forall b w t xs hint v vs,
  live_buffer P G build b w -> shows G b t xs -> t_align (G t) < t_size (G t) ->
  is_panic (fst (fst (vc_extend P hint (map (mk_ref G build t) (v :: vs)) b w))).
Proof.
  intros V P G build HG b w t xs hint v vs Hb Hs Hsa. live Hb Hs HR Hc l HO.
  unfold vc_extend, vc_reserve, on_data. cbn [vc_data vc_vtable].
  assert (Hloop : forall d w, Rep G t d xs -> Owns w (vv_own d ++ l) ->
    is_panic (fst (fst (vc_extend_loop P (map (mk_ref G build t) (v :: vs)) (VecCopy d vt) w)))).
  { clear -HG Hsa. intros d w HR HO. cbn [map vc_extend_loop].
    rewrite (vc_size_rep G HG _ _ _ _ HR), (vc_type_rep G _ _ _ _ HR).
    unfold mk_ref at 1 2 3, copy_ref_new, cr_size. cbn [cr_bytes cr_type_id].
    rewrite enc_length, !N.eqb_refl. cbn [negb]. unfold on_data. cbn [vc_data vc_vtable].
    destruct (vv_push_many_chunks P G HG t d xs (enc G t v) w l HR HO Hsa) as (w' & leak & HE & _).
    { apply enc_length. }
    destruct HE as [->|[-> _]]; exact I. }
  destruct (vv_reserve_any P G HG t d xs hint w l HR HO) as [d' w' HR' HO' Htr|p|p d' w' leak Hp HO' Htr];
    [|exact I|exact I].
  now apply Hloop.
Qed.

(** ** C13 *)

Lemma c13_rotate_partial_fact :
  forall (V : Type) (P : profile) (G : tenv) (build : tyid -> V), wf_tenv G ->
  forall b w t xs k,
  live_buffer P G build b w -> shows G b t xs -> k <= lenN xs -> t_align (G t) <= 8192 ->
  (exists b', vc_rotate_left P k b w = (Ret tt, b', w) /\ shows G b' t (rotl k xs) /\
              vc_capacity b' = vc_capacity b) /\
  (exists b', vc_rotate_right P k b w = (Ret tt, b', w) /\ shows G b' t (rotr k xs) /\
              vc_capacity b' = vc_capacity b).
Proof.
  intros V P G build HG b w t xs k Hb Hs Hk Ha. live Hb Hs HR Hc l HO.
  unfold vc_rotate_left, vc_rotate_right, on_data. cbn [vc_data vc_vtable]. split.
  - destruct (vv_rotate_left_rep P G HG t d xs k w l HR HO Ha Hk) as (d' & -> & HR' & Hcap & _).
    eexists. csplit; [reflexivity|now shw|exact Hcap].
  - destruct (vv_rotate_right_rep P G HG t d xs k w l HR HO Ha Hk) as (d' & -> & HR' & Hcap & _).
    eexists. csplit; [reflexivity|now shw|exact Hcap].
Qed.

Lemma c13_slice_rotate_fact :
  forall (V : Type) (P : profile) (G : tenv), wf_tenv G ->
  forall t xs (vt : V) k,
  slice_ok G t xs -> k <= lenN xs ->
  slm_rotate_left P k (sl_from_slice G t xs vt) = (Ret tt, sl_from_slice G t (rotl k xs) vt) /\
  slm_rotate_right P k (sl_from_slice G t xs vt) = (Ret tt, sl_from_slice G t (rotr k xs) vt).
Proof.
  intros V P G HG t xs vt k [Hz Hm] Hk.
  assert (HS : SRep G t (sl_from_slice G t xs vt) xs) by (split; auto).
  rewrite (slm_rotate_left_rep P G HG t _ xs k HS Hk), (slm_rotate_right_rep P G HG t _ xs k HS Hk).
  now split.
Qed.

Lemma firstn_lenN_sub {A} (xs : list A) k : k <= lenN xs ->
  List.length (firstn (N.to_nat k) xs) = N.to_nat k.
Proof. intros H. apply firstn_length_le. unfold lenN in H. lia. Qed.

Lemma c13_rotations_undo_fact :
  forall (A : Type) (xs : list A) k,
  k <= lenN xs -> rotr k (rotl k xs) = xs /\ rotl k (rotr k xs) = xs.
Proof.
  intros A xs k Hk.
  assert (H1 : forall m, m <= lenN xs -> rotl (lenN xs - m) (rotl m xs) = xs).
  { intros m Hm. unfold rotl.
    assert (E : N.to_nat (lenN xs - m) = List.length (skipn (N.to_nat m) xs)).
    { rewrite skipn_length. unfold lenN in *. lia. }
    rewrite E, skipn_app, skipn_all, firstn_app, firstn_all, Nat.sub_diag.
    cbn [skipn firstn app]. rewrite app_nil_r. apply firstn_skipn. }
  split.
  - unfold rotr at 1. fold (lenN (rotl k xs)). rewrite rotl_len. now apply H1.
  - unfold rotr. fold (lenN xs). specialize (H1 (lenN xs - k) ltac:(lia)).
    replace (lenN xs - (lenN xs - k)) with k in H1 by lia. exact H1.
Qed.

(** ** C14 *)

Lemma c14_rotate_out_of_range_fact :
  forall (V : Type) (P : profile) (G : tenv) (build : tyid -> V), wf_tenv G ->
  forall b w t xs k,
  live_buffer P G build b w -> shows G b t xs -> lenN xs < k -> fits P k (t_size (G t)) ->
  t_align (G t) <= 8192 ->
  exists p b' w', vc_rotate_left P k b w = (Panic p, b', w') /\
                  vc_rotate_right P k b w = (Panic p, b', w') /\ gone G b'.
Proof.
  intros V P G build HG b w t xs k Hb Hs Hk Hf Ha. live Hb Hs HR Hc l HO.
  unfold vc_rotate_left, vc_rotate_right, on_data. cbn [vc_data vc_vtable].
  destruct (vv_rotate_out P G HG t d xs k w l HR HO Ha Hk) as (p & w' & _ & -> & -> & _).
  { pose proof (chunks_le_size G HG t k). destruct Hf; [left; lia|now right]. }
  do 3 eexists. csplit; [reflexivity|reflexivity|apply poisoned_gone; auto; apply vv_default_poisoned].
Qed.

Lemma c14_slice_rotate_out_of_range_partial_fact :
  forall (V : Type) (P : profile) (G : tenv), wf_tenv G ->
  forall t xs (vt : V) k,
  slice_ok G t xs -> lenN xs < k -> fits P k (t_size (G t)) ->
  exists p, slm_rotate_left P k (sl_from_slice G t xs vt) = (Panic p, sl_from_slice G t xs vt) /\
            slm_rotate_right P k (sl_from_slice G t xs vt) = (Panic p, sl_from_slice G t xs vt).
Proof.
  intros V P G HG t xs vt k [Hz Hm] Hk Hf.
  apply (slm_rotate_out P G HG t _ xs k); auto. split; auto.
Qed.

(** ** C15 *)

Lemma c15_typed_indexing_fact :
  forall (V : Type) (P : profile) (G : tenv) (build : tyid -> V), wf_tenv G ->
  forall b w t xs t' i v,
  live_buffer P G build b w -> shows G b t xs ->
  vc_get_as G t' i b =
    match nthN xs i with
    | Some x => Ret (if t' =? t then Some x else None)
    | None => Panic PAssert
    end /\
  exists b',
    vc_set_as G t' i v b =
      (if i <? lenN xs then Ret (t' =? t) else Panic PAssert, b') /\
    shows G b' t (if t' =? t then list_set xs (N.to_nat i) v else xs) /\
    vc_capacity b' = vc_capacity b.
Proof.
  intros V P G build HG b w t xs t' i v Hb Hs. live Hb Hs HR Hc l HO. split.
  - now rewrite (get_as_rep G _ _ _ _ _ _ HR).
  - rewrite (set_as_rep G _ _ _ _ _ _ _ HR).
    assert (Hoob : lenN xs <= i -> list_set xs (N.to_nat i) v = xs).
    { intros Hle. clear -Hle. revert i Hle. induction xs as [|x xs IH]; intros i Hle; [now destruct (N.to_nat i)|].
      rewrite lenN_cons in Hle. destruct (N.to_nat i) eqn:E; [lia|]. cbn [list_set]. f_equal.
      specialize (IH (i - 1) ltac:(lia)). replace (N.to_nat (i - 1)) with n in IH by lia. exact IH. }
    destruct (i <? lenN xs) eqn:El.
    + destruct (t' =? t); eexists; (csplit; [reflexivity| |reflexivity]); [|now shw].
      shw. apply (with_vals_rep G t _ xs _ HR). apply lenN_list_set.
    + apply N.ltb_ge in El. exists (VecCopy d vt). csplit; [reflexivity| |reflexivity].
      destruct (t' =? t); [rewrite Hoob by exact El|]; now shw.
Qed.

(** ** C16 *)

(** A value reference to an element of type [t] that reads as [v]. *)
Definition refers {V} (G : tenv) (t : tyid) (r : copy_ref V) (v : payload) : Prop :=
  cr_downcast G t r = Ret (Some v) /\ (forall t', t' <> t -> cr_downcast G t' r = Ret None).

Lemma elem_refers {V} G t (vt : V) v : t_size (G t) <> 0 -> refers G t (elem_ref G t vt v) v.
Proof.
  intros Hz. split.
  - rewrite elem_downcast by exact Hz. unfold typed. now rewrite N.eqb_refl.
  - intros t' Hne. rewrite elem_downcast by exact Hz. unfold typed. apply N.eqb_neq in Hne. now rewrite Hne.
Qed.

Lemma map_elem_refers {V} G t (vt : V) xs :
  t_size (G t) <> 0 -> Forall2 (refers G t) (map (elem_ref G t vt) xs) xs.
Proof. intros Hz. induction xs; cbn; constructor; auto. now apply elem_refers. Qed.

Lemma c16_iteration_fact :
  forall (V : Type) (P : profile) (G : tenv) (build : tyid -> V), wf_tenv G ->
  forall b w t xs,
  live_buffer P G build b w -> shows G b t xs ->
  (exists rs, vc_iter P b = Ret rs /\ Forall2 (refers G t) rs xs) /\
  vv_byte_chunks P (vc_data b) = Ret (map (enc G t) xs) /\
  (forall t' v, exists b',
     vc_iter_mut_copy P (mk_ref G build t' v) b = (Ret tt, b') /\
     shows G b' t (if t' =? t then map (fun _ => v) xs else xs)).
Proof.
  intros V P G build HG b w t xs Hb Hs. live Hb Hs HR Hc l HO. csplit.
  - rewrite (iter_rep P G HG _ _ _ _ HR). eexists. split; [reflexivity|]. apply map_elem_refers, HR.
  - exact (byte_chunks_rep P G HG _ _ _ HR).
  - intros t' v. unfold mk_ref. rewrite (iter_mut_copy_rep P G HG _ _ _ _ _ _ _ HR).
    eexists. split; [reflexivity|].
    assert (Hmr : repeat v (List.length xs) = map (fun _ => v) xs).
    { clear. induction xs; cbn; congruence. }
    rewrite Hmr. shw. apply (with_vals_rep G t _ xs _ HR).
    destruct (t' =? t); [apply lenN_map|reflexivity].
Qed.

Lemma c16_slice_iteration_fact :
  forall (V : Type) (P : profile) (G : tenv), wf_tenv G ->
  forall t xs (vt : V),
  slice_ok G t xs ->
  sl_len P (sl_from_slice G t xs vt) = Ret (lenN xs) /\
  (exists rs, sl_iter (sl_from_slice G t xs vt) = Ret rs /\ Forall2 (refers G t) rs xs) /\
  (exists ms, slm_iter (sl_from_slice G t xs vt) = Ret ms /\
              Forall2 (fun m v => refers G t (cr_of_cm m) v) ms xs) /\
  sl_as_slice P G t (sl_from_slice G t xs vt) = Ret (Some xs).
Proof.
  intros V P G HG t xs vt [Hz Hm].
  assert (HS : SRep G t (sl_from_slice G t xs vt) xs) by (split; auto).
  csplit.
  - exact (sl_len_rep P G HG t _ xs HS).
  - rewrite (sl_iter_rep G HG t _ xs HS). eexists. split; [reflexivity|]. now apply map_elem_refers.
  - rewrite (slm_iter_rep G HG t _ xs HS). eexists. split; [reflexivity|].
    clear -Hz. induction xs; cbn; constructor; auto. now apply (elem_refers G t vt a).
  - rewrite (sl_as_slice_rep P G HG t _ xs t HS). unfold typed. now rewrite N.eqb_refl.
Qed.

(** ** C17 *)

Lemma c17_copy_from_slice_partial_fact :
  forall (V : Type) (P : profile) (G : tenv) (build : tyid -> V), wf_tenv G ->
  forall b w t xs ys,
  live_buffer P G build b w -> shows G b t xs ->
  (lenN ys = lenN xs ->
     exists b', vc_copy_from_slice P G t ys b = (Ret true, b') /\ shows G b' t ys /\
                vc_capacity b' = vc_capacity b) /\
  (lenN ys <> lenN xs -> vc_copy_from_slice P G t ys b = (Panic PIndex, b)).
Proof.
  intros V P G build HG b w t xs ys Hb Hs. live Hb Hs HR Hc l HO. split.
  - intros Hl. exists (VecCopy (with_vals G t d ys) vt). csplit; [|shw; now apply (with_vals_rep G t _ xs)|reflexivity].
    apply (with_mut_slice_ret P G HG t d vt xs ys); auto.
    intros s HS. rewrite (slm_copy_from_slice_rep P G HG t s xs _ _ HS), N.eqb_refl.
    symmetry in Hl. apply N.eqb_eq in Hl. now rewrite Hl.
  - intros Hl.
    destruct (with_mut_slice_same P G HG t d vt xs (slm_copy_from_slice P G t ys) HR) as (s & a & HS & Ha & HE).
    { intros s HS. rewrite (slm_copy_from_slice_rep P G HG t s xs _ _ HS), N.eqb_refl.
      apply N.neq_sym, N.eqb_neq in Hl. rewrite Hl. eauto. }
    rewrite (slm_copy_from_slice_rep P G HG t s xs _ _ HS), N.eqb_refl in Ha.
    apply N.neq_sym, N.eqb_neq in Hl. rewrite Hl in Ha. injection Ha as <-. exact HE.
Qed.

(** ** C18 *)

Lemma c18_fill_fact :
  forall (V : Type) (P : profile) (G : tenv) (build : tyid -> V), wf_tenv G ->
  forall b w t xs v,
  live_buffer P G build b w -> shows G b t xs ->
  exists b', vc_fill G t v b = (Ret true, b') /\ shows G b' t (map (fun _ => v) xs) /\
             vc_len b' = vc_len b /\ vc_capacity b' = vc_capacity b.
Proof.
  intros V P G build HG b w t xs v Hb Hs. live Hb Hs HR Hc l HO.
  unfold vc_fill. rewrite (as_mut_slice_as_rep G _ _ _ _ _ _ HR), N.eqb_refl.
  eexists. csplit; [reflexivity| |reflexivity|reflexivity].
  replace (map (fun _ => v) xs) with (mapi (fun _ _ => v) xs).
  - shw. apply (with_vals_rep G t _ xs _ HR). apply lenN_mapi.
  - unfold mapi. rewrite mapi_from_const. clear. induction xs; cbn; congruence.
Qed.

(** ** C19 *)

Lemma c19_clone_fact :
  forall (V : Type) (P : profile) (G : tenv) (build : tyid -> V), wf_tenv G ->
  forall b w t xs,
  live_buffer P G build b w -> shows G b t xs ->
  exists b' w' i i',
    vc_clone P b w = (Ret b', w') /\ shows G b' t xs /\
    vc_len b' = vc_len b /\ vc_capacity b' = vc_capacity b /\ vc_vtable b' = vc_vtable b /\
    vv_blk (vc_data b) = Some i /\ vv_blk (vc_data b') = Some i' /\ i <> i' /\
    In (i, (vc_capacity b * t_size (G t), t_align (G t))) (w_live w') /\
    In (i', (vc_capacity b * t_size (G t), t_align (G t))) (w_live w') /\
    w_trace w' = w_trace w.
Proof.
  intros V P G build HG b w t xs Hb Hs. live Hb Hs HR Hc l HO.
  unfold vc_clone. cbn [vc_data vc_vtable].
  destruct (vv_clone_rep P G HG t d xs w l HR HO) as (d' & w' & -> & HR' & Hcap & HO' & Htr).
  destruct (vv_blk d) as [i|] eqn:Ei; [|now destruct (rep_blk _ _ _ _ HR)].
  destruct (vv_blk d') as [i'|] eqn:Ei'; [|now destruct (rep_blk _ _ _ _ HR')].
  exists (VecCopy d' vt), w', i, i'. cbn [vc_data vc_vtable].
  rewrite (rep_own G HG t d xs HR), (rep_own G HG t d' xs HR'), Ei, Ei', Hcap in HO'.
  cbn [owned] in HO'.
  assert (Hnz : vv_cap d * t_size (G t) =? 0 = false).
  { apply N.eqb_neq. pose proof (rep_cap1 _ _ _ _ HR). pose proof (rep_sized _ _ _ _ HR). nia. }
  rewrite Hnz in HO'. cbn [app] in HO'. pose proof (Owns_nodup _ _ HO') as Hnd. cbn [map fst] in Hnd.
  destruct HO' as [_ HP].
  csplit; auto.
  - now shw.
  - unfold vc_len. cbn [vc_data]. now rewrite (rep_len _ _ _ _ HR), (rep_len _ _ _ _ HR').
  - intros ->. inversion Hnd as [|? ? Hni _]. apply Hni. now left.
  - eapply Permutation_in; [symmetry; exact HP|]. right. left. reflexivity.
  - eapply Permutation_in; [symmetry; exact HP|]. left. reflexivity.
Qed.

Lemma c19_independence_fact :
  forall (V : Type) (P : profile) (G : tenv) (build : tyid -> V),
  forall s st h b,
  get st h = Some b -> ~ touches h s -> get (snd (run_step P G build s st)) h = Some b.
Proof.
  intros V P G build s st h b Hg Ht. unfold get in *.
  destruct (nth_error (c_store st) h) as [[b0|]|] eqn:En; try discriminate. injection Hg as ->.
  assert (Hset : forall k x, k <> h -> nth_error (list_set (c_store st) k x) h = Some (Some b)).
  { intros k x Hne. rewrite nth_error_list_set. apply Nat.eqb_neq in Hne. now rewrite Hne. }
  assert (Hnew : forall r, nth_error (c_store (snd (new_buf r st))) h = Some (Some b)).
  { intros [[nb|p|u|] w']; cbn [new_buf snd c_store]; auto.
    rewrite nth_error_app1; auto. apply nth_error_Some. congruence. }
  destruct s as [c|k|k|k|k t|k k'|k c]; cbn [run_step touches] in *; unfold get.
  - now rewrite Hnew.
  - destruct (nth_error (c_store st) k) as [[bk|]|]; cbn [snd]; rewrite ?Hnew, ?En; auto.
  - destruct (nth_error (c_store st) k) as [[bk|]|]; cbn [snd]; rewrite ?Hnew, ?En; auto.
  - destruct (nth_error (c_store st) k) as [[bk|]|]; cbn [snd]; rewrite ?En; auto.
    destruct (vc_drop _ _ _) as [o w']. cbn [snd c_store]. now rewrite Hset.
  - destruct (nth_error (c_store st) k) as [[bk|]|]; cbn [snd]; rewrite ?En; auto.
    destruct (vc_into_vec _ _ _ _ _) as [[[vec|]|p|u|] w1]; cbn [snd c_store]; rewrite ?Hset; auto.
    destruct (vec_elems _ _ _); cbn [snd c_store]; rewrite ?Hset; auto.
    destruct (vec_drop _ _ _ _). cbn [snd c_store]; rewrite ?Hset; auto.
  - destruct (nth_error (c_store st) k) as [[bk|]|] eqn:Ek; cbn [snd]; rewrite ?En; auto.
    destruct (nth_error (c_store st) k') as [[bk'|]|] eqn:Ek'; cbn [snd]; rewrite ?En; auto.
    destruct (k =? k')%nat; cbn [snd]; rewrite ?En; auto.
    destruct (vc_append _ _ _ _) as [[[o b1] b1'] w']. cbn [snd c_store].
    assert (k <> h /\ k' <> h) as [H1 H2] by tauto.
    rewrite nth_error_list_set. apply Nat.eqb_neq in H2 as H2'. now rewrite H2', Hset.
  - destruct (nth_error (c_store st) k) as [[bk|]|]; cbn [snd]; rewrite ?En; auto.
    destruct (run_call _ _ _ _ _ _) as [[o b'] w']. cbn [snd c_store]. now rewrite Hset.
Qed.

(** ** C20 *)

Lemma c20_with_type_from_fact :
  forall (V : Type) (P : profile) (G : tenv) (build : tyid -> V), wf_tenv G ->
  forall t w m,
  wf_world w -> t_size (G t) <> 0 ->
  (exists b w0 xs, live_buffer P G build b w0 /\ shows G b t xs /\ m = meta_of_vec b) \/
  (exists v, m = meta_of_copy_ref (mk_ref G build t v)) \/
  (exists xs vt, m = meta_of_slice (sl_from_slice G t xs vt)) ->
  exists b w',
    vc_with_type_from P m w = (Ret b, w') /\ shows G b t [] /\ vc_len b = 0 /\
    (forall t', vc_check t' b = (t' =? t)) /\ w_trace w' = w_trace w.
Proof.
  intros V P G build HG t w m Hw Hz Hm.
  assert (Hm' : exists vt, m = Meta (elem_new G t) vt).
  { destruct Hm as [(b & wb & xs & Hb & Hs & ->)|[(v & ->)|(xs & vt & ->)]].
    - live Hb Hs HR Hc l HO. exists vt. unfold meta_of_vec. cbn [vc_data vc_vtable]. now rewrite (rep_elem _ _ _ _ HR).
    - rewrite meta_of_ref_elem. eauto.
    - unfold meta_of_slice, sl_from_slice. cbn. eauto. }
  destruct Hm' as [vt ->].
  destruct (vc_with_type_from_rep P G HG t vt w (w_live w) Hz ltac:(now split)) as (d & w' & HE & HR & _ & _ & Htr).
  exists (VecCopy d vt), w'. csplit; auto.
  - now shw.
  - exact (rep_len _ _ _ _ HR).
  - intros t'. exact (vc_check_rep G t d _ vt t' HR).
Qed.

(** ** C26 *)

Lemma c26_dispatch_fact :
  forall a,
  (legal_align a -> eval_align a = Some a) /\ (~ legal_align a -> eval_align a = None).
Proof.
  intros a. split; [apply eval_align_legal|].
  intros Hn. rewrite legal_align_enum in Hn. unfold eval_align, eval_align_with.
  assert (HF : forall arms, ~ In a (map fst arms) -> find_arm arms a = None).
  { induction arms as [|[lit k] arms IH]; cbn [map fst In find_arm]; auto.
    intros Hni. destruct (N.eqb_spec a lit) as [->|Hne]; [tauto|]. apply IH. tauto. }
  rewrite HF; [reflexivity|]. exact Hn.
Qed.

Lemma c26_elements_aligned_fact :
  forall (V : Type) (P : profile) (G : tenv) (build : tyid -> V), wf_tenv G ->
  forall b w t xs,
  live_buffer P G build b w -> shows G b t xs ->
  exists i sz,
    vv_blk (vc_data b) = Some i /\ In (i, (sz, t_align (G t))) (w_live w) /\
    lenN xs * t_size (G t) <= sz /\
    forall base k, base mod t_align (G t) = 0 ->
      (base + k * vc_element_size b) mod t_align (G t) = 0.
Proof.
  intros V P G build HG b w t xs Hb Hs. live Hb Hs HR Hc l HO.
  destruct (vv_blk d) as [i|] eqn:Ei; [|now destruct (rep_blk _ _ _ _ HR)].
  exists i, (vv_cap d * t_size (G t)).
  assert (Hnz : vv_cap d * t_size (G t) =? 0 = false).
  { apply N.eqb_neq. pose proof (rep_cap1 _ _ _ _ HR). pose proof (rep_sized _ _ _ _ HR). nia. }
  csplit; auto.
  - rewrite (rep_own G HG t d xs HR), Ei in HO. cbn [owned] in HO. rewrite Hnz in HO.
    destruct HO as [_ HP]. eapply Permutation_in; [symmetry; exact HP|]. now left.
  - pose proof (rep_cap _ _ _ _ HR). nia.
  - intros base k Hbase. rewrite (vc_size_rep G HG _ _ _ _ HR).
    pose proof (wf_align_pos G t HG). rewrite (chunks_size G HG t), N.mul_assoc.
    rewrite N.mod_add by lia. exact Hbase.
Qed.

(** ** C27 *)

Lemma c27_after_panic_partial_fact :
  forall (V : Type) (P : profile) (G : tenv) (build : tyid -> V), wf_tenv G ->
  forall b w c p b' w',
  live_buffer P G build b w -> call_typed G c -> call_in_range P G c b ->
  run_call P G build c b w = (Panic p, b', w') ->
  (b' = b \/
   gone G b' \/
   exists t xs hint vals t1 v1 rest,
     c = SExtend hint (vals ++ (t1, v1) :: rest) /\ shows G b t xs /\
     Forall (fun p => fst p = t) vals /\ t1 <> t /\ shows G b' t (xs ++ map snd vals)) /\
  exists w'', vc_drop P b' w' = (Ret tt, w'').
Proof.
  intros V P G build HG b w c p b' w' Hb Hty Hin HE.
  assert (Hb2 : exists st h leak, get st h = Some b /\ w = c_world st /\ inv G st leak).
  { destruct Hb as (st & h & Hr & Hg & ->). destruct (reachable_inv P G HG build st Hr) as (leak & HI). eauto 8. }
  destruct Hb2 as (st & h & leak & Hg & -> & HI).
  destruct (inv_out G st leak h b HI Hg) as (rest & HO & _).
  destruct (slot_ok_get G st leak h b HI Hg) as [(t & xs & HR & Hc)|Hp].
  - destruct b as [d vt]. cbn [vc_data] in *.
    pose proof (run_call_rep P G HG build c t d vt xs (c_world st) _ HR Hc HO Hty Hin) as HP.
    rewrite HE in HP. inversion HP as [| p0 w1 Hw HO' | p0 hint vals t1 v1 rs b1 w1 Hcx Hst Hne HR' HO' | p0 b1 w1 lk Hw Hpo HO']; subst.
    + split; [now left|]. unfold vc_drop in *. cbn [vc_data] in *.
      destruct (vv_drop_rep P G HG t d xs w' _ HR HO') as (w'' & -> & _). eauto.
    + split.
      * right. right. exists t, xs, hint, vals, t1, v1, rs. csplit; auto.
        -- now shw.
        -- apply Forall_forall. intros q Hq. unfold same_type in Hst. rewrite forallb_forall in Hst.
           now apply N.eqb_eq, Hst.
        -- now apply rep_shows.
      * unfold vc_drop in *. destruct (vv_drop_rep P G HG t _ _ w' _ HR' HO') as (w'' & -> & _). eauto.
    + split; [right; left; now apply poisoned_gone|].
      unfold vc_drop. rewrite vv_drop_poisoned by assumption. eauto.
  - destruct b as [d vt]. cbn [vc_data] in *. rewrite (poisoned_shape d Hp) in *.
    pose proof (vc_call_pois P G HG build c _ _ vt (c_world st) Hty Hin) as HP. rewrite HE in HP.
    inversion HP as [o n k w1 Hs HO']; subst.
    split; [right; left; apply poisoned_gone; auto; apply pois_vec_poisoned|].
    unfold vc_drop. cbn [vc_data]. rewrite vv_drop_poisoned by apply pois_vec_poisoned. eauto.
Qed.
