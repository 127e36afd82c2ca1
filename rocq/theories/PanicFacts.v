(** * Programs whose calls may panic: what lists say about them. *)

From Verif Require Export ViewFacts.
From Verif Require Import ReachProofs DynRunProofs DynReach DynCallProofs DynLemmas.

(** ** View programs on a buffer that lost its contents *)

Section Pois.
Context {V : Type} (P : profile) (G : tenv) (HG : wf_tenv G).

Lemma sl_bounds_pois i (vt : V) :
  sl_bounds_debug P i (pois_slice vt) = Panic PDivZero \/ sl_bounds_debug P i (pois_slice vt) = Ret tt.
Proof. unfold sl_bounds_debug. rewrite sl_len_pois. destruct (debug_assertions P); auto. Qed.

Lemma run_vop_pois o (vt : V) :
  exists a, run_vop P G o (pois_slice vt) = (a, pois_slice vt) /\ safe a.
Proof.
  destruct o; cbn [run_vop].
  - rewrite sl_len_pois. eexists. now split.
  - eexists. now split.
  - unfold slm_as_slice. rewrite sl_len_pois. eexists. now split.
  - eexists. now split.
  - unfold sl_get. destruct (sl_bounds_pois i vt) as [-> | ->]; cbn [obind]; [eexists; now split|].
    change (sl_element_size (pois_slice vt)) with 0.
    destruct (index_byte_range_0 P i) as (? & -> & [->|[p ->]]); cbn [obind]; [|eexists; now split].
    cbn [fst snd pois_slice sl_data]. change (index_range (@nil mbyte) 0 0) with (Ret (@nil mbyte)). cbn [obind].
    unfold cr_downcast, cr_is, sl_ref, sl_element_type_id. cbn [cr_type_id cr_bytes sl_elem pois_slice e_type_id].
    destruct (unit_id =? t) eqn:E; [|eexists; now split].
    apply N.eqb_eq in E as <-. unfold from_bytes, read_val, dec. rewrite (wf_unit_size G HG).
    eexists. now split.
  - unfold sl_get_as. rewrite sl_len_pois. eexists. now split.
  - unfold slm_set_as, sl_get_as. rewrite sl_len_pois. eexists. now split.
  - unfold slm_get_mut_copy, slm_get_mut.
    destruct (sl_bounds_pois i vt) as [-> | ->]; cbn [obind]; [eexists; now split|].
    change (sl_element_size (pois_slice vt)) with 0.
    destruct (index_byte_range_0 P i) as (? & -> & [->|[p ->]]); cbn [obind]; [|eexists; now split].
    cbn [fst snd pois_slice sl_data]. change (index_range (@nil mbyte) 0 0) with (Ret (@nil mbyte)). cbn [obind].
    unfold cm_copy, sl_mut, sl_element_type_id. cbn [cm_type_id sl_elem pois_slice e_type_id].
    destruct (unit_id =? _) eqn:E; [|eexists; now split].
    cbn [user_ref copy_ref_new cr_type_id cr_bytes cm_bytes] in *. apply N.eqb_eq in E as <-.
    rewrite enc_nil by apply (wf_unit_size G HG). eexists. now split.
  - eexists. now split.
  - unfold slm_copy_from_slice, slm_as_slice. rewrite sl_len_pois. eexists. now split.
  - unfold slm_update, slm_as_slice. rewrite sl_len_pois. eexists. now split.
  - unfold slm_rotate_left. change (sl_element_size (pois_slice vt)) with 0. rewrite umul_0_r. eexists. now split.
  - unfold slm_rotate_right. change (sl_element_size (pois_slice vt)) with 0. rewrite umul_0_r. eexists. now split.
  - destruct (slm_swap_pois P vt i j) as (o & -> & Ho). eexists. split; [reflexivity|].
    destruct o; try contradiction; exact I.
Qed.

Lemma cut_slice_pois c (vt : V) :
  (exists p, cut_slice P c (pois_slice vt) = Panic p) \/
  exists n, cut_slice P c (pois_slice vt) = Ret (0, repeat (pois_slice vt) n).
Proof.
  destruct c as [a b|b|a| |k|k]; cbn [cut_slice].
  1-4: right; exists 1%nat; unfold sl_subslice; cbn [scale_range];
    change (sl_element_size (pois_slice vt)) with 0; rewrite ?umul_0_r; reflexivity.
  - right. exists 2%nat. unfold sl_split_at. change (num_bytes (sl_elem (pois_slice vt))) with 0.
    rewrite umul_0_r. reflexivity.
  - left. unfold sl_chunks_exact. change (num_bytes (sl_elem (pois_slice vt))) with 0.
    rewrite umul_0_l. eexists. reflexivity.
Qed.

Lemma run_view_pois (vt : V) :
  (forall p, exists os o, run_view P G p (pois_slice vt) = (os, o, pois_slice vt) /\ safe o) /\
  (forall b n, exists os o, run_body P G b (repeat (pois_slice vt) n) = (os, o, repeat (pois_slice vt) n) /\ safe o).
Proof.
  apply view_ind.
  - intros o. cbn [run_view]. destruct (run_vop_pois o vt) as (a & -> & Ha).
    destruct a; try contradiction; do 2 eexists; now split.
  - intros c b IH. rewrite run_view_cut. destruct (cut_slice_pois c vt) as [[p ->]|[n ->]].
    + do 2 eexists. now split.
    + cbv beta iota. destruct (IH n) as (os & o & -> & Ho). exists os, o. split; [|exact Ho].
      f_equal. replace (List.concat (map sl_data (repeat (pois_slice vt) n))) with (@nil mbyte); [reflexivity|].
      induction n as [|n IHn]; [reflexivity|exact IHn].
  - intros n. do 2 eexists. now split.
  - intros j p IHp b IHb n. rewrite run_body_do.
    destruct (nth_error (repeat (pois_slice vt) n) j) as [s|] eqn:E; [|apply IHb].
    assert (Hs : s = pois_slice vt) by (apply nth_error_In in E; now apply repeat_spec in E). subst s.
    destruct IHp as (os & o & -> & Ho). rewrite (list_set_same _ _ _ E).
    destruct o; try contradiction.
    + destruct (IHb n) as (os2 & o2 & -> & Ho2). do 2 eexists. now split.
    + do 2 eexists. now split.
Qed.

Lemma vc_run_view_pois p n k (vt : V) :
  exists os o, vc_run_view P G p (VecCopy (pois_vec n k) vt) = (os, o, VecCopy (pois_vec n k) vt) /\ safe o.
Proof.
  unfold vc_run_view. rewrite vc_as_slice_pois. destruct (proj1 (run_view_pois vt) p) as (os & o & -> & Ho).
  exists os, o. split; [reflexivity|exact Ho].
Qed.

End Pois.

Section Programs.
Context {V : Type} (P : profile) (G : tenv) (HG : wf_tenv G) (build : tyid -> V).

Lemma run_xstep_acts s (st : cstate (V := V)) leak hst :
  inv G st leak -> hrel G st hst -> xstep_typed G s -> xstep_in_range P G s st ->
  exists o st' r hst' leak',
    run_xstep P G build s st = (o, st') /\ reported o r /\ acts G hst s r hst' /\
    hrel G st' hst' /\ inv G st' (leak' ++ leak) /\ (is_ret o -> leak' = []).
Proof.
  intros HI HR Hty Hin. destruct s as [s|h p]; cbn [run_xstep xstep_typed xstep_in_range] in *.
  - destruct (run_step_acts P G HG build s st leak HI Hty Hin) as [r st' HI' HA|p st' leak' HI' HA];
      destruct (HA hst HR) as (hst' & Ha & HR').
    + exists (Ret (XAns r)), st', (Some (XAns r)), hst', []. now csplit.
    + exists (Panic p), st', None, hst', leak'. csplit; try easy.
  - destruct (Machine.get st h) as [b|] eqn:Hg.
    2:{ exists (Ret (XAns RInvalid)), st, (Some (XAns RInvalid)), hst, []. csplit; try easy.
        apply A_invalid. cbn. now apply (hrel_none G st hst h). }
    destruct (inv_out0 G st leak h b HI Hg) as (rest & HO & Hback & _).
    destruct (slot_ok_get G st leak h b HI Hg) as [(t & xs & Hh)|HP].
    + pose proof (hrel_holds G st hst h b t xs HR Hg Hh) as Hl. destruct Hh as [HRep Hc].
      unfold vc_run_view. destruct b as [d vt]. cbn [vc_data vc_vtable] in *.
      destruct (vc_as_slice_rep P G HG t d vt xs HRep) as (s & -> & HS & _ & _).
      destruct (list_view p t xs) as [[os ok] ys] eqn:E.
      assert (Hsz : vc_element_size (VecCopy d vt) = t_size (G t)) by exact (vc_size_rep G HG t d vt xs HRep).
      rewrite Hsz in Hin.
      destruct (proj1 (run_view_rep P G HG t) p s xs HS Hin os ok ys E) as (o & -> & HE & HL).
      cbn [sl_vals sl_data]. rewrite (splice_all_with_vals G t d xs ys HRep HL).
      pose proof (with_vals_rep G t d xs ys HRep HL) as HRep'.
      assert (HI' : inv G (CState (list_set (c_store st) h (Some (VecCopy (with_vals G t d ys) vt))) (c_world st)) leak).
      { apply Hback; [left; exists t, ys; now split|].
        cbn [slot_blocks]. rewrite buf_block_own. exact HO. }
      assert (HR' : hrel G (CState (list_set (c_store st) h (Some (VecCopy (with_vals G t d ys) vt))) (c_world st))
                         (list_set hst h (Some (Holds t ys)))).
      { apply hrel_set; [exact HR|now split]. }
      destruct ok; unfold ended in HE.
      * subst o. do 2 eexists. exists (Some (XSeen os)), (list_set hst h (Some (Holds t ys))), [].
        csplit; try reflexivity; try assumption. now apply (A_view G hst h p t xs os ys).
      * destruct o as [| q | |]; try contradiction. do 2 eexists.
        exists None, (list_set hst h (Some (Holds t ys))), [].
        csplit; try reflexivity; try assumption. now apply (A_view_panics G hst h p t xs os ys).
    + pose proof (hrel_lost G st hst h b HR Hg HP) as Hl.
      destruct b as [d vt]. cbn [vc_data] in *. pose proof (poisoned_shape d HP) as Ed. rewrite Ed in *.
      destruct (vc_run_view_pois P G HG p (vv_len d) (vv_cap d) vt) as (os & o & -> & Ho).
      apply get_some in Hg. rewrite (list_set_same _ _ _ Hg).
      destruct st as [l w]. cbn [c_store c_world] in *.
      destruct o as [x|q| |]; try contradiction; cbn [obind].
      * do 2 eexists. exists (Some (XSeen os)), hst, []. csplit; try reflexivity; try assumption.
        now apply A_view_on_lost.
      * do 2 eexists. exists None, hst, []. csplit; try reflexivity; try assumption.
        now apply A_view_on_lost.
Qed.

Lemma xrun_acts prog : forall (st : cstate (V := V)) leak hst,
  inv G st leak -> hrel G st hst -> Forall (xstep_typed G) prog -> xin_range P G build prog st ->
  exists rs st' rs' hst' leak',
    xrun P G build prog st = (rs, st') /\ Forall2 reported rs rs' /\ acts_all G prog hst rs' hst' /\
    hrel G st' hst' /\ inv G st' (leak' ++ leak) /\ (Forall is_ret rs -> leak' = []).
Proof.
  induction prog as [|s prog IH]; intros st leak hst HI HR Hty Hin.
  - exists [], st, [], hst, []. csplit; try easy; constructor.
  - inversion Hty as [|x y Hs Hty']; subst. cbn [xin_range] in Hin. destruct Hin as [Hs' Hin].
    destruct (run_xstep_acts s st leak hst HI HR Hs Hs') as (o & st1 & r & hst1 & lk & E & Hrep & Ha & HR1 & HI1 & Hl).
    rewrite E in Hin. cbn [snd] in Hin.
    destruct (IH st1 _ hst1 HI1 HR1 Hty' Hin) as (rs & st2 & rs' & hst2 & lk2 & E2 & HF & HA & HR2 & HI2 & Hl2).
    exists (o :: rs), st2, (r :: rs'), hst2, (lk2 ++ lk). csplit.
    + cbn [xrun]. rewrite E, E2. destruct o; try reflexivity; destruct r; contradiction.
    + now constructor.
    + now apply (AA_cons G s prog hst r hst1).
    + exact HR2.
    + now rewrite <- app_assoc.
    + intros H. inversion H; subst. now rewrite Hl, Hl2.
Qed.

End Programs.

Lemma c81_programs_fact :
  forall (V : Type) (P : profile) (G : tenv) (build : tyid -> V), wf_tenv G ->
  forall prog,
  Forall (xstep_typed G) prog -> xin_range P G build prog c_init ->
  let '(rs, st) := xrun P G build prog c_init in
  exists rs' hst lost,
    Forall2 reported rs rs' /\ acts_all G prog [] rs' hst /\ Forall2 (found G) (c_store st) hst /\
    Permutation (w_live (c_world st)) (owned_blocks st ++ lost) /\
    NoDup (map fst (w_live (c_world st))) /\ (Forall is_ret rs -> lost = []).
Proof.
  intros V P G build HG prog Hty Hin.
  assert (HR : hrel G (c_init (V := V)) []) by constructor.
  destruct (xrun_acts P G HG build prog c_init [] [] (inv_init G) HR Hty Hin)
    as (rs & st & rs' & hst & lk & -> & HF & HA & HR' & HI & Hl).
  rewrite app_nil_r in HI. exists rs', hst, lk. csplit; try assumption.
  - unfold hrel in HR'. clear - HG HR'. induction HR' as [|s a l l' Hs H IH]; constructor; [|exact IH].
    destruct s as [b|], a as [[t xs|]|]; try contradiction; cbn in *; auto.
    + apply rep_shows, Hs.
    + now apply poisoned_gone.
  - apply HI.
  - apply HI.
Qed.

(** ** What the specification says *)

Lemma nth_list_set {A} (l : list A) h k x : k <> h -> nth_error (list_set l k x) h = nth_error l h.
Proof.
  revert h k. induction l as [|a l IH]; intros [|h] [|k] Hne; cbn; try reflexivity; try congruence.
  apply IH. congruence.
Qed.

Lemma c81_other_buffers_fact :
  forall (G : tenv) st s r st' h,
  acts G st s r st' -> (h < List.length st)%nat -> ~ xtouches h s ->
  nth_error st' h = nth_error st h.
Proof.
  intros G st s r st' h HA Hh Hn. inversion HA; subst; cbn [xtouches touches] in Hn; try reflexivity;
    try (apply nth_error_app1; exact Hh); rewrite ?nth_list_set; auto.
Qed.

Lemma c81_returning_calls_fact :
  forall (G : tenv) lst s r hst',
  acts G (nothing_lost lst) (XStep s) (Some (XAns r)) hst' ->
  exists lst', hst' = nothing_lost lst' /\ list_step G s lst = Some (r, lst').
Proof. intros G lst s r hst' H. exact (acts_returns G lst s r hst' H). Qed.
