(** * DynRunProofs: what holds in every state that a program over [VecDyn]s and owned values
    reaches. *)

From Verif Require Export DynReach DynSteps.

(** ** Programs in which nothing is lost *)

Definition no_lost (lst : lstate) : Prop := Forall (fun o => o <> Some LLost) (l_objs lst).

Lemma no_lost_get lst h : no_lost lst -> lget lst h <> Some LLost.
Proof.
  unfold no_lost, lget. intros H E. rewrite Forall_forall in H.
  destruct (nth_error (l_objs lst) h) as [o|] eqn:En; [|discriminate].
  apply nth_error_In in En. specialize (H o En). destruct o; congruence.
Qed.

Lemma no_lost_set objs h o :
  Forall (fun o => o <> Some LLost) objs -> o <> Some LLost ->
  Forall (fun o => o <> Some LLost) (list_set objs h o).
Proof.
  revert h. induction objs as [|x objs IH]; intros h H Ho; [destruct h; exact H|].
  inversion H; subst. destruct h as [|h]; cbn [list_set]; constructor; auto.
Qed.

Lemma no_lost_app objs o :
  Forall (fun o => o <> Some LLost) objs -> o <> Some LLost ->
  Forall (fun o => o <> Some LLost) (objs ++ [o]).
Proof. intros H Ho. apply Forall_app. split; [exact H|]. constructor; [exact Ho|constructor]. Qed.

Lemma dyn_step_keeps G s lst r lst' :
  no_lost lst -> dyn_step G s lst = Some (r, lst') -> no_lost lst'.
Proof.
  intros HN. unfold no_lost in *. destruct s; cbn [dyn_step]; unfold lnew_sized, lclone_val;
  repeat match goal with
         | |- context [match ?x with _ => _ end] =>
             lazymatch x with
             | lstate => fail
             | _ => destruct x
             end
         end;
  unfold obs_, invalid; try discriminate;
  intros E; injection E as <- <-; cbn [lnew lset lset_trace lemit l_objs];
  repeat first [exact HN | apply no_lost_app | apply no_lost_set | discriminate].
Qed.

Lemma dacts_all_returns G prog lst rs lst' :
  no_lost lst -> dacts_all G prog lst (map Some rs) lst' -> dyn_run G prog lst = Some (rs, lst').
Proof.
  revert lst rs. induction prog as [|s prog IH]; intros lst rs HN H.
  - inversion H as [st E1 E2 E3|]; subst. destruct rs; [reflexivity|discriminate].
  - inversion H as [|s0 prog0 st r st1 rs0 st2 Hs Hall E1 E2 E3 E4]; subst.
    destruct rs as [|r0 rs]; [discriminate|]. cbn [map] in E3. injection E3 as -> ->.
    inversion Hs as [r1 st3 Hd|st3 Hl|r1 st3 [h [_ Hl]] _ _]; subst.
    + cbn [dyn_run]. rewrite Hd. rewrite (IH st1 rs); [reflexivity| |exact Hall].
      exact (dyn_step_keeps G s lst _ _ HN Hd).
    + now elim (no_lost_get lst h HN).
Qed.

Section DynRunProofs.
Context {V : Type} `{HD : HasDrop V} `{HCl : HasClone V} `{HE : HasPartialEq V} `{HH : HasHash V}
        `{HF : HasDebug V} `{HT : VTable V} `{HS : Sized V} {HL : Lawful V}.
Context (P : profile) (G : tenv) (HG : wf_tenv G) (HC : clones_ok G) (HQ : drops_quietly G).

Lemma drun_inv prog st leak :
  dinv G st leak -> Forall (dstep_typed G) prog -> dyn_in_range P G prog st ->
  exists leak' lost,
    dinv G (snd (drun P G prog st)) (leak' ++ leak) /\
    Forall safe (fst (drun P G prog st)) /\
    List.length (fst (drun P G prog st)) = List.length prog /\
    bal G (stored G st) (given G prog (fst (drun P G prog st))) (w_trace (d_world st))
          (stored G (snd (drun P G prog st))) (taken G prog (fst (drun P G prog st))) lost
          (w_trace (d_world (snd (drun P G prog st)))) /\
    (forall rs, fst (drun P G prog st) = map Ret rs -> keeps_all prog rs -> leak' = [] /\ lost = []) /\
    (forall lst, drel G st lst ->
       exists lst', dacts_all G prog lst (map step_report (fst (drun P G prog st))) lst' /\
                    drel G (snd (drun P G prog st)) lst').
Proof using HG HC HQ HL.
  revert st leak. induction prog as [|s prog IH]; intros st leak HI Hty Hin.
  - exists [], []. cbn. csplit; [exact HI|constructor|reflexivity|intros q; cnts q; lia| |].
    + auto.
    + intros lst HR. exists lst. split; [constructor|exact HR].
  - inversion Hty as [|s' prog' Hs Hprog]; subst. destruct Hin as [Hr Hin].
    pose proof (run_dstep_post P G HG HC HQ s st leak HI Hs Hr) as HP. cbn [drun].
    destruct (run_dstep P G s st) as [o st1] eqn:E. cbn [snd] in Hin.
    inversion HP as [HLs Heq|a st' lk lost1 HI' HB HLo HLs Heq|p st' lk lost1 HI' HB HLs Heq]; subst o; try subst st'.
    + subst st1. destruct (IH st leak HI Hprog Hin) as (leak' & lost & HI2 & HSf & HLn & HB2 & HK & HF2).
      destruct (drun P G prog st) as [rs st2] eqn:E2. cbn [fst snd] in *.
      exists leak', lost.
      csplit; [exact HI2|constructor; [exact I|exact HSf]|cbn; now rewrite HLn| | |].
      * cbn [given taken]. replace (step_takes G s DInvalid) with (@nil tval) by now destruct s. exact HB2.
      * intros [|r0 rs0] Eq; cbn [map] in Eq; [discriminate|]. injection Eq as <- Eq.
        intros HKA. inversion HKA; subst. now apply (HK rs0).
      * intros lst HR. destruct (HF2 lst HR) as (lst2 & HLr & HR2). exists lst2. split; [|exact HR2].
        cbn [map]. econstructor; [|exact HLr]. apply D_ret. now apply HLs.
    + destruct (IH st1 (lk ++ leak) HI' Hprog Hin) as (leak' & lost & HI2 & HSf & HLn & HB2 & HK & HF2).
      destruct (drun P G prog st1) as [rs st2] eqn:E2. cbn [fst snd] in *.
      exists (leak' ++ lk), (lost1 ++ lost). rewrite <- app_assoc.
      csplit; [exact HI2|constructor; [exact I|exact HSf]|cbn; now rewrite HLn| | |].
      * cbn [given taken]. intros q. specialize (HB q). specialize (HB2 q).
        revert HB HB2. cnts q. lia.
      * intros [|r0 rs0] Eq; cbn [map] in Eq; [discriminate|]. injection Eq as <- Eq.
        intros HKA. inversion HKA; subst. destruct (HLo ltac:(assumption)) as [-> ->].
        destruct (HK rs0 eq_refl ltac:(assumption)) as [-> ->]. auto.
      * intros lst HR. destruct (HLs lst HR) as (lst1 & HLs1 & HR1).
        destruct (HF2 lst1 HR1) as (lst2 & HLr & HR2). exists lst2. split; [|exact HR2].
        cbn [map]. econstructor; [exact HLs1|exact HLr].
    + destruct (IH st1 (lk ++ leak) HI' Hprog Hin) as (leak' & lost & HI2 & HSf & HLn & HB2 & HK & HF2).
      destruct (drun P G prog st1) as [rs st2] eqn:E2. cbn [fst snd] in *.
      exists (leak' ++ lk), (lost1 ++ lost). rewrite <- app_assoc.
      csplit; [exact HI2|constructor; [exact I|exact HSf]|cbn; now rewrite HLn| | |].
      * cbn [given taken]. intros q. specialize (HB q). specialize (HB2 q).
        revert HB HB2. cnts q. lia.
      * intros [|r0 rs0] Eq; cbn [map] in Eq; discriminate.
      * intros lst HR. destruct (HLs lst HR) as (lst1 & HLs1 & HR1).
        destruct (HF2 lst1 HR1) as (lst2 & HLr & HR2). exists lst2. split; [|exact HR2].
        cbn [map]. econstructor; [exact HLs1|exact HLr].
Qed.

Lemma dinv_init : dinv G (d_init (V := V)) [].
Proof. split; [constructor|]. apply Owns_w0. Qed.

Lemma dreachable_inv st : dreachable P G st -> exists leak, dinv G st leak.
Proof using HG HC HQ HL.
  intros (prog & Hty & Hin & ->).
  destruct (drun_inv prog d_init [] dinv_init Hty Hin) as (leak & lost & HI & _).
  rewrite app_nil_r in HI. eauto.
Qed.

(** ** Taking live objects out of their state *)

Lemma rep_contents (vt : V) t d xs : Rep G t d xs -> contents G (VecCopy d vt) t xs.
Proof.
  intros HR. split; [apply HR|]. unfold vd_as_slice_as. rewrite (as_slice_as_rep G _ _ _ _ _ HR).
  unfold typed. now rewrite N.eqb_refl.
Qed.

Lemma pois_lost (vt : V) n k : lost_vec G (VecCopy (pois_vec n k) vt).
Proof using HG.
  split; [reflexivity|]. intros t Ht. unfold vd_as_slice_as, vc_as_slice_as, vc_check.
  cbn. destruct (t =? unit_id) eqn:E; [|reflexivity].
  apply N.eqb_eq in E. subst t. now elim Ht; apply HG.
Qed.

Lemma vec_contents st leak h b t xs :
  dinv G st leak -> dget st h = Some (OVec b) -> contents G b t xs ->
  exists d, b = VecCopy d (build_vtable t) /\ Rep G t d xs.
Proof using HG.
  intros HI Hg [Hz Hc]. destruct (vec_cases G st leak h b HI Hg) as [(t' & d & xs' & -> & HR)|(t' & n & k & -> & Hz')].
  - unfold vd_as_slice_as in Hc. rewrite (as_slice_as_rep G _ _ _ _ _ HR) in Hc. unfold typed in Hc.
    destruct (t =? t') eqn:E; [|discriminate]. apply N.eqb_eq in E as ->. injection Hc as ->. eauto.
  - destruct (pois_lost (build_vtable t') n k) as [_ H]. rewrite (H t Hz) in Hc. discriminate.
Qed.

Lemma live_vec_rep b w t xs :
  live_vec P G b w -> contents G b t xs ->
  exists d l, b = VecCopy d (build_vtable t) /\ Rep G t d xs /\ Owns w (vv_own d ++ l).
Proof using HG HC HQ HL.
  intros (st & h & HR & Hg & ->) Hc. destruct (dreachable_inv st HR) as [leak HI].
  destruct (vec_contents st leak h b t xs HI Hg Hc) as (d & -> & HRep).
  destruct (dinv_out G st leak h _ HI Hg) as (rb & rv & HO & _).
  cbn [obj_blocks] in HO. rewrite buf_block_own in HO. eauto.
Qed.

Lemma live_vec_cases b w :
  live_vec P G b w -> (exists t xs, contents G b t xs) \/ lost_vec G b.
Proof using HG HC HQ HL.
  intros (st & h & HR & Hg & ->). destruct (dreachable_inv st HR) as [leak HI].
  destruct (vec_cases G st leak h b HI Hg) as [(t & d & xs & -> & HRep)|(t & n & k & -> & _)].
  - left. exists t, xs. now apply rep_contents.
  - right. apply pois_lost.
Qed.

Lemma live_vecs_rep b b' w t xs t' xs' :
  live_vecs P G b b' w -> contents G b t xs -> contents G b' t' xs' ->
  exists d d' l, b = VecCopy d (build_vtable t) /\ b' = VecCopy d' (build_vtable t') /\
    Rep G t d xs /\ Rep G t' d' xs' /\ Owns w (vv_own d ++ vv_own d' ++ l).
Proof using HG HC HQ HL.
  intros (st & h & h' & HR & Hne & Hg & Hg' & ->) Hc Hc'. destruct (dreachable_inv st HR) as [leak HI].
  destruct (vec_contents st leak h b t xs HI Hg Hc) as (d & -> & HRep).
  destruct (vec_contents st leak h' b' t' xs' HI Hg' Hc') as (d' & -> & HRep').
  destruct (dinv_out2 G st leak h h' _ _ HI Hg Hg' Hne) as (rb & rv & HO & _).
  cbn [obj_blocks] in HO. rewrite !buf_block_own in HO. exists d, d', (rb ++ leak). auto.
Qed.

Lemma vrep_is v t x : VRep G v t x -> value_is G v t x.
Proof.
  intros HV. pose proof (vr_downcast_rep G v t x HV) as E. rewrite (vp_type _ _ _ _ HV) in E.
  split; [apply HV|]. split; [apply HV|exact E].
Qed.

Lemma val_is st leak k v t x :
  dinv G st leak -> dget st k = Some (OVal v) -> value_is G v t x -> VRep G v t x.
Proof.
  intros HI Hg (Ht & _ & Hd). destruct (val_cases G st leak k v HI Hg) as (t' & x' & HV).
  assert (t' = t) as ->. { rewrite <- Ht. symmetry. apply HV. }
  pose proof (vr_downcast_rep G v t x' HV) as E. rewrite (vp_type _ _ _ _ HV) in E.
  rewrite E in Hd. injection Hd as ->. exact HV.
Qed.

Lemma live_val_rep v w t x :
  live_val P G v w -> value_is G v t x ->
  VRep G v t x /\ exists l, Owns w (obj_blocks (OVal v) ++ l).
Proof using HG HC HQ HL.
  intros (st & k & HR & Hg & ->) Hv. destruct (dreachable_inv st HR) as [leak HI].
  split; [exact (val_is st leak k v t x HI Hg Hv)|].
  destruct (dinv_out G st leak k _ HI Hg) as (rb & rv & HO & _). eauto.
Qed.

Lemma live_vals_rep v v' w t x t' x' :
  live_vals P G v v' w -> value_is G v t x -> value_is G v' t' x' ->
  VRep G v t x /\ VRep G v' t' x' /\
  exists l, Owns w (obj_blocks (OVal v) ++ obj_blocks (OVal v') ++ l).
Proof using HG HC HQ HL.
  intros (st & k & k' & HR & Hne & Hg & Hg' & ->) Hv Hv'. destruct (dreachable_inv st HR) as [leak HI].
  split; [exact (val_is st leak k v t x HI Hg Hv)|].
  split; [exact (val_is st leak k' v' t' x' HI Hg' Hv')|].
  destruct (dinv_out2 G st leak k k' _ _ HI Hg Hg' Hne) as (rb & rv & HO & _). eauto.
Qed.

Lemma live_vec_val_rep b v w t xs t' x :
  live_vec_val P G b v w -> contents G b t xs -> value_is G v t' x ->
  exists d l, b = VecCopy d (build_vtable t) /\ Rep G t d xs /\ VRep G v t' x /\
    Owns w (vv_own d ++ obj_blocks (OVal v) ++ l).
Proof using HG HC HQ HL.
  intros (st & h & k & HR & Hg & Hg' & ->) Hc Hv. destruct (dreachable_inv st HR) as [leak HI].
  assert (h <> k) as Hne by congruence.
  destruct (vec_contents st leak h b t xs HI Hg Hc) as (d & -> & HRep).
  destruct (dinv_out2 G st leak h k _ _ HI Hg Hg' Hne) as (rb & rv & HO & _).
  cbn [obj_blocks] in HO. rewrite buf_block_own in HO. exists d, (rb ++ leak).
  csplit; [reflexivity|exact HRep|exact (val_is st leak k v t' x HI Hg' Hv)|exact HO].
Qed.

(** ** References *)

Lemma ref_ok_is r t x : ref_ok G r (Some (t, x)) -> ref_is G r t x.
Proof.
  intros H. remember (Some (t, x)) as rv eqn:E.
  destruct H as [t' v Hb Ht Ha Hv Hi|]; [|discriminate]. injection E as -> ->. split; [exact Ht|].
  unfold vr_downcast. rewrite Ht, N.eqb_refl, Hb, from_bytes_enc by exact Hi. reflexivity.
Qed.

Lemma ref_is_ok r rv t x : ref_ok G r rv -> ref_is G r t x -> t <> unit_id -> ref_ok G r (Some (t, x)).
Proof.
  intros H [Ht Hd] Hu. destruct rv as [[t' v]|].
  - destruct (ref_ok_is r _ _ H) as [Ht' Hd']. rewrite Ht in Ht'. subst t'.
    rewrite Hd' in Hd. injection Hd as <-. exact H.
  - inversion H. congruence.
Qed.

Lemma source_ref st leak s r :
  dinv G st leak -> source_typed G s -> source_in_range P st s -> get_source P G st s = inr (Ret r) ->
  exists rv, ref_ok G r rv.
Proof using HG HL.
  intros HI Hty Hin Hg. pose proof (get_source_ok P G HG st leak s HI Hty Hin) as Hs. rewrite Hg in Hs.
  inversion Hs; subst; eauto.
Qed.

Lemma live_ref_ok r w :
  live_ref P G r w -> exists rv, ref_ok G r rv /\ wf_world w.
Proof using HG HC HQ HL.
  intros (st & s & HR & Hty & Hin & Hg & ->). destruct (dreachable_inv st HR) as [leak HI].
  destruct (source_ref st leak s r HI Hty Hin Hg) as [rv Hr]. exists rv. split; [exact Hr|].
  apply (proj2 HI).
Qed.

Lemma live_vec_ref_rep b r w t xs :
  live_vec_ref P G b r w -> contents G b t xs ->
  exists d l rv, b = VecCopy d (build_vtable t) /\ Rep G t d xs /\ Owns w (vv_own d ++ l) /\ ref_ok G r rv.
Proof using HG HC HQ HL.
  intros (st & h & s & HR & Hg & Hty & Hin & Hu & Hs & ->) Hc.
  destruct (live_vec_rep b (d_world st) t xs) as (d & l & -> & HRep & HO); [|exact Hc|].
  { exists st, h. auto. }
  destruct (dreachable_inv st HR) as [leak HI].
  destruct (source_ref st leak s r HI Hty Hin Hs) as [rv Hr]. exists d, l, rv. auto.
Qed.

Lemma live_val_ref_rep v r w t x :
  live_val_ref P G v r w -> value_is G v t x ->
  VRep G v t x /\ wf_world w /\ exists rv, ref_ok G r rv.
Proof using HG HC HQ HL.
  intros (st & k & s & HR & Hg & Hty & Hin & Hu & Hs & ->) Hv.
  destruct (dreachable_inv st HR) as [leak HI].
  destruct (source_ref st leak s r HI Hty Hin Hs) as [rv Hr].
  split; [exact (val_is st leak k v t x HI Hg Hv)|]. split; [apply (proj2 HI)|eauto].
Qed.

(** ** Memory *)

Lemma owns_freed w w' bs l : Owns w (bs ++ l) -> Owns w' l -> freed w bs w'.
Proof. intros [_ H] [_ H']. unfold freed. now rewrite H, H'. Qed.
Lemma owns_allocated w w' bs l : Owns w l -> Owns w' (bs ++ l) -> allocated w bs w'.
Proof. intros [_ H] [_ H']. unfold allocated. now rewrite H, H'. Qed.
Lemma wf_owns w : wf_world w -> Owns w (w_live w).
Proof. intros H. now split. Qed.

(** ** What the user sees of a state *)

Lemma drel_shows st lst : drel G st lst -> shows_objects G st lst.
Proof using HG.
  intros HR. pose proof HR as [HF2 Ht]. unfold shows_objects. csplit.
  - clear -HF2. induction HF2 as [|x y a b _ _ IH]; [reflexivity|]. cbn. now rewrite IH.
  - intros h t xs. split.
    + intros Hl. destruct (dget st h) as [x|] eqn:Hg.
      * destruct (drel_get G st lst h x HR Hg) as (a & Hl' & Ha). rewrite Hl in Hl'. injection Hl' as <-.
        inversion Ha as [t' d xs' HRep E1 E2| |]; subst. eexists. split; [reflexivity|]. now apply rep_contents.
      * rewrite (drel_get_none G st lst h HR Hg) in Hl. discriminate.
    + intros (b & Hg & Hz & Hc). destruct (drel_get G st lst h _ HR Hg) as (a & Hl' & Ha).
      inversion Ha as [t' d xs' HRep E1 E2| |t' n k Hz' E1 E2]; subst.
      2:{ destruct (pois_lost (build_vtable t') n k) as [_ Hno]. rewrite (Hno t Hz) in Hc. discriminate. }
      unfold vd_as_slice_as in Hc. rewrite (as_slice_as_rep G _ _ _ _ _ HRep) in Hc. unfold typed in Hc.
      destruct (t =? t') eqn:E; [|discriminate]. apply N.eqb_eq in E as ->. injection Hc as ->. exact Hl'.
  - intros k small t x. split.
    + intros Hl. destruct (dget st k) as [y|] eqn:Hg.
      * destruct (drel_get G st lst k y HR Hg) as (a & Hl' & Ha). rewrite Hl in Hl'. injection Hl' as <-.
        inversion Ha as [|v t' x' HV E1 E2|]; subst. exists v. csplit; [reflexivity|now apply vrep_is|reflexivity].
      * rewrite (drel_get_none G st lst k HR Hg) in Hl. discriminate.
    + intros (v & Hg & (Hty & _ & Hd) & Hs). destruct (drel_get G st lst k _ HR Hg) as (a & Hl' & Ha).
      inversion Ha as [|v' t' x' HV E1 E2|]; subst. pose proof (vr_downcast_rep G v t' x' HV) as E.
      rewrite E in Hd. injection Hd as <-. rewrite (vp_type _ _ _ _ HV). exact Hl'.
  - intros h. split.
    + intros Hl. destruct (dget st h) as [x|] eqn:Hg.
      * destruct (drel_get G st lst h x HR Hg) as (a & Hl' & Ha). rewrite Hl in Hl'. injection Hl' as <-.
        inversion Ha as [| |t n k Hz E1 E2]; subst. eexists. split; [reflexivity|]. apply pois_lost.
      * rewrite (drel_get_none G st lst h HR Hg) in Hl. discriminate.
    + intros (b & Hg & _ & Hlost). destruct (drel_get G st lst h _ HR Hg) as (a & Hl' & Ha).
      inversion Ha as [t d xs HRep E1 E2| |t n k Hz E1 E2]; subst; [|exact Hl'].
      specialize (Hlost t (rep_sized _ _ _ _ HRep)). unfold vd_as_slice_as in Hlost.
      rewrite (as_slice_as_rep G _ _ _ _ _ HRep) in Hlost. unfold typed in Hlost.
      rewrite N.eqb_refl in Hlost. discriminate.
  - exact Ht.
Qed.

End DynRunProofs.
