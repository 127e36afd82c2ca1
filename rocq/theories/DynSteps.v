(** * DynSteps: every step of a program over [VecDyn]s and owned values, one by one. *)

From Verif Require Export DynMachineProofs.

Section DynSteps.
Context {V : Type} `{HD : HasDrop V} `{HCl : HasClone V} `{HE : HasPartialEq V} `{HH : HasHash V}
        `{HF : HasDebug V} `{HT : VTable V} `{HS : Sized V} {HL : Lawful V}.
Context (P : profile) (G : tenv) (HG : wf_tenv G) (HC : clones_ok G) (HQ : drops_quietly G).

Lemma lset_same lst h a :
  lget lst h = Some a -> LState (list_set (l_objs lst) h (Some a)) (l_trace lst) = lst.
Proof.
  unfold lget. destruct (nth_error (l_objs lst) h) as [[b|]|] eqn:E; try discriminate. intros [= ->].
  rewrite (list_set_same _ _ _ E). now destruct lst.
Qed.

Lemma sized_lnew t xs tr lst t' xs' tr' :
  sized_spec G t xs tr = Some (t', xs', tr') ->
  lnew_sized G t xs (lset_trace lst tr) =
  Some (DObs AUnit, LState (l_objs lst ++ [Some (LVec t' xs')]) tr').
Proof.
  unfold sized_spec, lnew_sized. destruct (t_size (G t) =? 0); [discriminate|]. intros [= -> -> ->].
  reflexivity.
Qed.

Lemma lset_trace_same lst : lset_trace lst (l_trace lst) = lst.
Proof. now destruct lst. Qed.

Lemma blocks_out (st : dstate (V := V)) h x :
  dget st h = Some x -> exists rb, Permutation (obj_blocks_of st) (obj_blocks x ++ rb).
Proof.
  intros Hg. apply dget_some in Hg.
  destruct (flat_map_set (slot_blocks (V := V)) (d_objs st) h (Some x) Hg) as (rb & H1 & _).
  exists rb. exact H1.
Qed.

Lemma new_post_perm w l l' gives spec may r :
  Permutation l l' -> new_post G w l gives spec may r -> new_post G w l' gives spec may r.
Proof.
  intros HP Hn. destruct Hn as [t xs d w' Hs HR HO Hb|p w' lk lost Hm HO Hb].
  - apply (NP_ret G w l' gives spec may t xs d w'); auto.
    eapply Owns_perm; [|exact HO]. now apply Permutation_app_head.
  - apply (NP_panic G w l' gives spec may p w' lk lost); auto.
    eapply Owns_perm; [|exact HO]. now apply Permutation_app_head.
Qed.

Lemma lstate_trace lst tr : tr = l_trace lst -> LState (l_objs lst) tr = lst.
Proof. intros ->. now destruct lst. Qed.

(** ** Constructors *)

Lemma step_from_vec t cap vs st leak :
  dinv G st leak -> Forall (is_value G t) vs ->
  dstep_post G (DFromVec t cap vs) st leak (run_dstep P G (DFromVec t cap vs) st).
Proof using HG HQ HL.
  intros HI Hty. cbn [run_dstep]. eapply new_vec_step; eauto.
  - eapply from_vec_new; eauto. apply HI.
  - intros lst _ Ht t' xs tr Hs. rewrite <- Ht in Hs.
    apply D_ret. cbn [dyn_step]. rewrite <- (lset_trace_same lst) at 1. now apply sized_lnew.
  - intros lst _ Ht tr Hm. cbn beta in Hm. rewrite <- Ht in Hm. apply D_panic. cbn [step_leaves].
    destruct Hm as [[Hb ->]|[Hz ->]]; [left|right]; (split; [exact Hb||exact Hz|]); now destruct lst.
Qed.

Lemma step_with_type t st leak :
  dinv G st leak -> dstep_post G (DWithType t) st leak (run_dstep P G (DWithType t) st).
Proof using HG HQ HL.
  intros HI. cbn [run_dstep]. eapply new_vec_step; eauto.
  - eapply with_type_new; eauto. apply HI.
  - intros lst _ Ht t' xs tr Hs. rewrite <- Ht in Hs.
    apply D_ret. cbn [dyn_step]. rewrite <- (lset_trace_same lst) at 1. now apply sized_lnew.
  - intros lst _ Ht tr Hm. cbn beta in Hm. rewrite <- Ht in Hm. apply D_panic. cbn [step_leaves].
    destruct Hm as [Hz ->]. split; [exact Hz|]. now destruct lst.
Qed.

Lemma step_with_capacity t n st leak :
  dinv G st leak -> dstep_post G (DWithCapacity t n) st leak (run_dstep P G (DWithCapacity t n) st).
Proof using HG HQ HL.
  intros HI. cbn [run_dstep]. eapply new_vec_step; eauto.
  - eapply with_capacity_new; eauto. apply HI.
  - intros lst _ Ht t' xs tr Hs. rewrite <- Ht in Hs.
    apply D_ret. cbn [dyn_step]. rewrite <- (lset_trace_same lst) at 1. now apply sized_lnew.
  - intros lst _ Ht tr Hm. cbn beta in Hm. rewrite <- Ht in Hm. apply D_panic. cbn [step_leaves].
    destruct Hm as [Hz ->]. split; [exact Hz|]. now destruct lst.
Qed.

Lemma step_with_size t n v st leak :
  dinv G st leak -> is_value G t v ->
  dstep_post G (DWithSize t n v) st leak (run_dstep P G (DWithSize t n v) st).
Proof using HG HC HQ HL.
  intros HI Hv. cbn [run_dstep]. eapply new_vec_step; eauto.
  - eapply with_size_new; eauto. apply HI.
  - intros lst _ Ht t' xs tr Hs. apply D_ret. cbn [dyn_step]. rewrite <- Ht in Hs. destruct (n =? 0).
    + now apply sized_lnew.
    + destruct (clone_seq G t (repeat v (N.to_nat (n - 1))) (l_trace lst)) as [[cs ok] tr'].
      destruct ok; [|discriminate]. now apply sized_lnew.
  - intros lst _ Ht tr Hm. cbn beta in Hm. rewrite <- Ht in Hm. apply D_panic. cbn [step_leaves].
    destruct Hm as [[Hb ->]|(Hn & cs & ok & tr1 & Hs & Hm)].
    + left. split; [exact Hb|]. now destruct lst.
    + right. split; [exact Hn|]. exists cs, ok, tr1. split; [exact Hs|].
      destruct ok; [destruct Hm as [Hz ->]; split; [exact Hz|]|rewrite Hm]; reflexivity.
Qed.

Lemma step_from_slice t vs st leak :
  dinv G st leak -> dstep_post G (DFromSlice t vs) st leak (run_dstep P G (DFromSlice t vs) st).
Proof using HG HC HQ HL.
  intros HI. cbn [run_dstep]. eapply new_vec_step; eauto.
  - eapply from_slice_new; eauto. apply HI.
  - intros lst _ Ht t' xs tr Hs. apply D_ret. cbn [dyn_step]. rewrite <- Ht in Hs.
    destruct (clone_seq G t vs (l_trace lst)) as [[cs ok] tr'].
    destruct ok; [|discriminate]. now apply sized_lnew.
  - intros lst _ Ht tr Hm. cbn beta in Hm. rewrite <- Ht in Hm. apply D_panic. cbn [step_leaves].
    destruct Hm as [[Hb ->]|(cs & ok & tr1 & Hs & Hz & ->)].
    + left. split; [exact Hb|]. now destruct lst.
    + right. exists cs, ok, tr1. auto.
Qed.

Lemma not_a_vec st leak s h :
  dinv G st leak -> (forall b, dget st h <> Some (OVec b)) ->
  (forall lst, (forall t xs, lget lst h <> Some (LVec t xs)) -> dyn_step G s lst = Some (DInvalid, lst)) ->
  dstep_post G s st leak (dinvalid st).
Proof using HG.
  intros HI Hno Hl. apply DS_invalid. intros lst HR. apply Hl. intros t xs Hg.
  destruct (dget st h) as [[b|v]|] eqn:E.
  - now apply (Hno b).
  - destruct (drel_get G st lst h _ HR E) as (a & Ha & Hr). inversion Hr; subst; congruence.
  - rewrite (drel_get_none G st lst h HR E) in Hg. discriminate.
Qed.

Lemma not_a_val st leak s h :
  dinv G st leak -> (forall b, dget st h <> Some (OVal b)) ->
  (forall lst, (forall sm t x, lget lst h <> Some (LVal sm t x)) -> dyn_step G s lst = Some (DInvalid, lst)) ->
  dstep_post G s st leak (dinvalid st).
Proof using HG.
  intros HI Hno Hl. apply DS_invalid. intros lst HR. apply Hl. intros sm t x Hg.
  destruct (dget st h) as [[b|v]|] eqn:E.
  - destruct (drel_get G st lst h _ HR E) as (a & Ha & Hr). inversion Hr; subst; congruence.
  - now apply (Hno v).
  - rewrite (drel_get_none G st lst h HR E) in Hg. discriminate.
Qed.

Ltac no_vec HI h :=
  apply (not_a_vec _ _ _ h HI); [congruence|];
  let lst := fresh in let Hl := fresh in
  intros lst Hl; cbn [dyn_step];
  repeat match goal with
         | |- context [match lget ?l ?h with _ => _ end] =>
             let E := fresh in destruct (lget l h) as [[? ?|? ? ?|]|] eqn:E;
             try reflexivity; try (exfalso; eapply Hl; first [exact E | reflexivity])
         end; try reflexivity.

Lemma step_with_type_from h st leak :
  dinv G st leak -> dstep_post G (DWithTypeFrom h) st leak (run_dstep P G (DWithTypeFrom h) st).
Proof using HG HL.
  intros HI. cbn [run_dstep]. destruct (dget st h) as [[b|v]|] eqn:Hg.
  - destruct (vec_cases G st leak h b HI Hg) as [(t & d & xs & -> & HR)|(t & n & k & -> & Hz)].
    + eapply (new_vec_step G HG _ st leak (sized_spec G t [] (w_trace (d_world st)))); eauto.
      * unfold meta_of_vecdyn, meta_of_vec. cbn [vc_data vc_vtable].
        rewrite (rep_elem _ _ _ _ HR). eapply with_type_from_new; eauto. apply HI.
      * intros lst HRel Ht t' ys tr Hs. apply D_ret. cbn [dyn_step].
        rewrite (drel_get_as G st lst h _ _ HRel Hg (OR_vec G t d xs HR)).
        rewrite <- Ht in Hs. rewrite <- (lset_trace_same lst) at 1. now apply sized_lnew.
      * intros lst HRel Ht tr [Hz _]. now destruct (rep_sized _ _ _ _ HR).
    + destruct (vc_with_type_from_pois P n k (build_vtable t) (d_world st)) as [p Hp].
      unfold vd_with_type_from, meta_of_vecdyn. rewrite Hp. cbn [new_obj retype].
      replace (dworld st (d_world st)) with st by now destruct st.
      apply panic_same; auto. intros lst HRel.
      apply (lost_same G lst _ _ h); [now left|exact (drel_pois G st lst h n k t HRel Hg Hz)|now split].
  - no_vec HI h.
  - no_vec HI h.
Qed.

Lemma dworld_same (st : dstate (V := V)) : dworld st (d_world st) = st.
Proof. now destruct st. Qed.

Lemma step_with_type_from_ref src st leak :
  dinv G st leak -> source_typed G src -> source_in_range P st src ->
  dstep_post G (DWithTypeFromRef src) st leak (run_dstep P G (DWithTypeFromRef src) st).
Proof using HG HL.
  intros HI Hty Hin. cbn [run_dstep].
  destruct (get_source_ok P G HG st leak src HI Hty Hin) as [Hl|p Hl|p h0 Hin0 Hlost|r t v Hr Hl|r h0 Hr Hin0 Hlost].
  - apply DS_invalid. intros lst HR. cbn [dyn_step]. now rewrite (Hl lst HR).
  - cbn [retype]. apply panic_same; auto. intros lst HRel. apply D_panic. cbn [step_leaves].
    now rewrite (Hl lst HRel).
  - cbn [retype]. apply panic_same; auto. intros lst HRel.
    apply (lost_same G lst _ _ h0); [exact Hin0|now apply Hlost|now split].
  - rewrite (meta_ref_ok G r t v Hr).
    eapply (new_vec_step G HG _ st leak (sized_spec G t [] (w_trace (d_world st)))); eauto.
    + eapply with_type_from_new; eauto. apply HI.
    + intros lst HRel Ht t' ys tr Hs. apply D_ret. cbn [dyn_step]. rewrite (Hl lst HRel).
      rewrite <- Ht in Hs. rewrite <- (lset_trace_same lst) at 1. now apply sized_lnew.
    + intros lst HRel Ht tr [Hz ->]. rewrite <- Ht. apply D_panic. cbn [step_leaves].
      rewrite (Hl lst HRel). split; [exact Hz|]. now destruct lst.
  - destruct (with_type_from_ref_pois P G r (d_world st) Hr) as [p ->].
    cbn [new_obj retype]. rewrite dworld_same. apply panic_same; auto. intros lst HRel.
    apply (lost_same G lst _ _ h0); [exact Hin0|now apply Hlost|now split].
Qed.

Lemma step_clone h st leak :
  dinv G st leak -> dstep_post G (DClone h) st leak (run_dstep P G (DClone h) st).
Proof using HG HC HL.
  intros HI. cbn [run_dstep]. destruct (dget st h) as [[b|v]|] eqn:Hg.
  - destruct (vec_cases G st leak h b HI Hg) as [(t & d & xs & -> & HR)|(t & n & k & -> & Hz)].
    + destruct (blocks_out st h _ Hg) as [rb Hrb].
      assert (Hp : Permutation (vv_own d ++ (rb ++ leak)) (obj_blocks_of st ++ leak)).
      { rewrite app_assoc. apply Permutation_app_tail. symmetry. exact Hrb. }
      eapply new_vec_step; eauto.
      * eapply new_post_perm; [exact Hp|]. eapply clone_new; eauto.
        eapply Owns_perm; [symmetry; exact Hp|]. apply HI.
      * intros lst HRel Ht t' ys tr Hs. apply D_ret. cbn [dyn_step].
        rewrite (drel_get_as G st lst h _ _ HRel Hg (OR_vec G t d xs HR)), Ht.
        destruct (clone_seq G t xs (w_trace (d_world st))) as [[cs ok] tr']. destruct ok; [|discriminate].
        injection Hs as -> -> ->. reflexivity.
      * intros lst HRel Ht tr [cs Hs]. apply D_panic. cbn [step_leaves].
        rewrite (drel_get_as G st lst h _ _ HRel Hg (OR_vec G t d xs HR)), Ht.
        exists cs, tr. auto.
    + destruct (clone_pois P G n k (build_vtable t) (d_world st)) as [p ->].
      cbn [new_obj retype]. rewrite dworld_same. apply panic_same; auto. intros lst HRel.
      apply (lost_same G lst _ _ h); [now left|exact (drel_pois G st lst h n k t HRel Hg Hz)|now split].
  - no_vec HI h.
  - no_vec HI h.
Qed.

(** A vector whose contents are gone is used up. *)
Lemma lost_gone s st h n k t r :
  dget st h = Some (OVec (VecCopy (pois_vec n k) (build_vtable t))) -> t_size (G t) <> 0 ->
  In h (names s) ->
  (forall lst, consume s lst = list_set (l_objs lst) h None /\ handed G s lst = []) ->
  forall lst, drel G st lst ->
  exists lst', dacts G lst s r lst' /\ drel G (dset st h None (d_world st)) lst'.
Proof.
  intros Hg Hz Hin Hcon lst HRel.
  exists (LState (list_set (l_objs lst) h None) (l_trace lst)). split.
  - apply D_lost; [exists h; split; [exact Hin|exact (drel_pois G st lst h n k t HRel Hg Hz)]| |].
    + cbn [l_objs]. now rewrite (proj1 (Hcon lst)).
    + exists []. rewrite (proj2 (Hcon lst)). split; [constructor|]. now rewrite app_nil_r.
  - apply drel_set; [exact HRel|exact I|apply HRel].
Qed.

Lemma step_drop h st leak :
  dinv G st leak -> dstep_post G (DDrop h) st leak (run_dstep P G (DDrop h) st).
Proof using HG HQ HL.
  intros HI. cbn [run_dstep]. destruct (dget st h) as [[b|v]|] eqn:Hg.
  - destruct (dinv_out G st leak h _ HI Hg) as (rb & rv & HO & Hc & Hback).
    destruct (vec_cases G st leak h b HI Hg) as [(t & d & xs & -> & HR)|(t & n & k & -> & Hz)].
    + rewrite (obj_ok_vals G HG _ _ (OK_rel G _ _ (OR_vec G t d xs HR))) in Hc. cbn [lobj_vals] in Hc.
      edestruct (drop_ok (HT := HT)) as (w' & -> & HO' & Ht); [exact HG|exact HQ|exact HR|exact HO|].
      destruct (Hback None w' [] I HO') as [HI' Hc']. cbn [slot_vals] in Hc'.
      cbn [obind oreport]. apply (DS_ret G _ st leak AUnit _ [] []); [exact HI'| |now split|].
      * intros q. rewrite Hc, Hc'. cbn [dset d_world step_gives step_takes]. rewrite Ht. cnts q. lia.
      * intros lst HRel.
        pose proof (drel_get_as G st lst h _ _ HRel Hg (OR_vec G t d xs HR)) as Hl.
        eexists. split; [apply D_ret; cbn [dyn_step]; rewrite Hl; reflexivity|].
        unfold lset, lemit, lset_trace. cbn [l_objs l_trace].
        apply drel_set; [exact HRel|exact I|]. rewrite Ht. now rewrite (proj2 HRel).
    + rewrite (obj_ok_vals G HG _ _ (OK_pois G t n k Hz)) in Hc.
      destruct (drop_pois P G n k (build_vtable t) (d_world st)) as [p ->].
      destruct (Hback None (d_world st) [] I) as [HI' Hc']; [exact HO|]. cbn [slot_vals] in Hc'.
      cbn [obind oreport]. apply (DS_panic G _ st leak p _ [] []); [exact HI'| |].
      * intros q. rewrite Hc, Hc'. cbn [dset d_world step_gives]. cnts q. lia.
      * apply (lost_gone (DDrop h) st h n k t None Hg Hz); [now left|now split].
  - no_vec HI h.
  - no_vec HI h.
Qed.

Lemma step_into_vec h t' st leak :
  dinv G st leak -> dstep_post G (DIntoVec h t') st leak (run_dstep P G (DIntoVec h t') st).
Proof using HG HL.
  intros HI. cbn [run_dstep]. destruct (dget st h) as [[b|v]|] eqn:Hg.
  - destruct (dinv_out G st leak h _ HI Hg) as (rb & rv & HO & Hc & Hback).
    destruct (vec_cases G st leak h b HI Hg) as [(t & d & xs & -> & HR)|(t & n & k & -> & Hz)].
    + rewrite (obj_ok_vals G HG _ _ (OK_rel G _ _ (OR_vec G t d xs HR))) in Hc. cbn [lobj_vals] in Hc.
      destruct (N.eq_dec t' t) as [->|Hne].
      * edestruct (into_vec_ok (V := V)) as (vec & w' & -> & -> & -> & HO' & Ht); [exact HG|exact HR|exact HO|].
        destruct (Hback None w' [] I HO') as [HI' Hc']. cbn [slot_vals] in Hc'.
        cbn [obind oreport].
        apply (DS_ret G _ st leak (AVals (Some xs)) _ [] []); [exact HI'| |now split|].
        -- intros q. rewrite Hc, Hc'. cbn [dset d_world step_gives step_takes]. rewrite Ht. cnts q. lia.
        -- intros lst HRel.
           pose proof (drel_get_as G st lst h _ _ HRel Hg (OR_vec G t d xs HR)) as Hl.
           eexists. split.
           { apply D_ret. cbn [dyn_step]. rewrite Hl. unfold typed. rewrite N.eqb_refl. reflexivity. }
           unfold lset.
           apply drel_set; [exact HRel|exact I|]. rewrite Ht. apply HRel.
      * unfold vd_into_vec.
        destruct (into_vec_other P G HG t t' d (build_vtable t) xs (d_world st) (rb ++ leak) HR Hne HO)
          as (w' & -> & HO' & Ht).
        destruct (Hback None w' [] I HO') as [HI' Hc']. cbn [slot_vals] in Hc'.
        apply (DS_ret G _ st leak (AVals None) _ [] (owned_vals G t xs)); [exact HI'| |discriminate|].
        -- intros q. rewrite Hc, Hc'. cbn [dset d_world step_gives step_takes]. rewrite Ht. cnts q. lia.
        -- intros lst HRel.
           pose proof (drel_get_as G st lst h _ _ HRel Hg (OR_vec G t d xs HR)) as Hl.
           eexists. split.
           { apply D_ret. cbn [dyn_step]. rewrite Hl. unfold typed.
             rewrite (proj2 (N.eqb_neq t' t) Hne). reflexivity. }
           unfold lset.
           apply drel_set; [exact HRel|exact I|]. rewrite Ht. apply HRel.
    + rewrite (obj_ok_vals G HG _ _ (OK_pois G t n k Hz)) in Hc.
      destruct (Hback None (d_world st) [] I) as [HI' Hc']; [exact HO|]. cbn [slot_vals] in Hc'.
      destruct (into_pois P G HG t' n k (build_vtable t) (d_world st))
        as [->|(-> & vec & vs & -> & -> & ->)]; cbn [obind oreport].
      * apply (DS_ret G _ st leak (AVals None) _ [] []); [exact HI'| |discriminate|].
        -- intros q. rewrite Hc, Hc'. cbn [dset d_world step_gives step_takes]. cnts q. lia.
        -- apply (lost_gone (DIntoVec h _) st h n k t _ Hg Hz); [now left|now split].
      * apply (DS_ret G _ st leak (AVals (Some vs)) _ [] []); [exact HI'| |now split|].
        -- intros q. rewrite Hc, Hc'. cbn [dset d_world step_gives step_takes].
           rewrite (unit_owned G HG vs). cnts q. lia.
        -- apply (lost_gone (DIntoVec h _) st h n k t _ Hg Hz); [now left|now split].
  - no_vec HI h.
  - no_vec HI h.
Qed.

(** ** Two vectors *)

(** A vector object, spelled out. *)
Lemma vec_cases_left st leak h b :
  dinv G st leak -> dget st h = Some (OVec b) ->
  exists t d left, b = VecCopy d (build_vtable t) /\ vec_left G t d left /\ t_size (G t) <> 0.
Proof.
  intros HI Hg. destruct (vec_cases G st leak h b HI Hg) as [(t & d & xs & -> & HR)|(t & n & k & -> & Hz)].
  - exists t, d, (Some xs). split; [reflexivity|]. split; [now constructor|apply HR].
  - exists t, (pois_vec n k), None. split; [reflexivity|]. split; [|exact Hz].
    apply VL_pois. apply pois_vec_poisoned.
Qed.

Lemma rep_not_poisoned t d xs : Rep G t d xs -> ~ Poisoned d.
Proof. intros HR HP. rewrite (poisoned_shape d HP) in HR. now apply (rep_not_pois G t _ _ xs HR). Qed.

Lemma vec_same st leak h h' : h = h' -> forall b, dget (V := V) st h = Some b -> dinv G st leak ->
  forall lst, drel G st lst -> exists a, lget lst h = Some a /\ lget lst h' = Some a /\ obj_rel G b a.
Proof.
  intros <- b Hg HI lst HR. destruct (drel_get G st lst h _ HR Hg) as (a & Ha & Hr). eauto.
Qed.

Lemma step_append h h' st leak :
  dinv G st leak -> dstep_post G (DAppend h h') st leak (run_dstep P G (DAppend h h') st).
Proof using HG HL.
  intros HI. cbn [run_dstep]. destruct (dget st h) as [[b|v]|] eqn:Hg; [|no_vec HI h|no_vec HI h].
  destruct (dget st h') as [[b'|v']|] eqn:Hg'; [|no_vec HI h'|no_vec HI h'].
  destruct (Nat.eqb_spec h h') as [Eh|Hne].
  { apply DS_invalid. intros lst HRel.
    destruct (vec_same st leak h h' Eh _ Hg HI lst HRel) as (a & Ha & Ha' & Hr). cbn [dyn_step].
    rewrite Ha, Ha'. inversion Hr; subst; try rewrite Nat.eqb_refl; reflexivity. }
  destruct (vec_cases G st leak h b HI Hg) as [(t & d & xs & -> & HR)|Hp].
  - destruct (vec_cases G st leak h' b' HI Hg') as [(t' & d' & ys & -> & HR')|Hp'].
    + apply (two_step G HG (DAppend h h') st leak h h' t d xs t' d' ys ABool
               (if t' =? t then Some (true, xs ++ ys, []) else Some (false, xs, ys))
               (fun left left' => t' = t /\ left = None /\
                  (no_room G t (lenN xs) (lenN xs + lenN ys) /\ left' = None \/
                   odd_growth_to G t (lenN xs) (lenN xs + lenN ys) /\ left' = Some []))); auto.
      * intros l HO. now apply append_two.
      * intros lst HRel Hl Hl' Ht a xs' ys' Hs. apply D_ret. cbn [dyn_step]. rewrite Hl, Hl'.
        rewrite (proj2 (Nat.eqb_neq h h') Hne). destruct (t' =? t); injection Hs as <- <- <-.
        -- reflexivity.
        -- unfold obs_. do 2 f_equal. rewrite <- (lset_same _ _ _ Hl'), <- (lset_same _ _ _ Hl) at 1.
           cbn [l_objs l_trace]. reflexivity.
      * intros lst HRel Hl Hl' Ht left left' (E & -> & Hm). apply D_panic. cbn [step_leaves].
        rewrite Hl, Hl'. split; [exact Hne|]. split; [exact E|].
        destruct Hm as [[Hm ->]|[Hm ->]]; [left|right]; (split; [exact Hm|reflexivity]).
    + destruct Hp' as (t' & n & k & -> & Hz').
      apply (two_pois_step G HG (DAppend h h') st leak h h' t d (Some xs) t' (pois_vec n k) None ABool);
        auto; try (now constructor); try (apply VL_pois; apply pois_vec_poisoned);
        try (cbn [names]; auto with datatypes; fail).
      * apply HR.
      * intros l HO. apply append_pois; auto; [now constructor|apply VL_pois; apply pois_vec_poisoned|].
        right. apply pois_vec_poisoned.
  - destruct Hp as (t & n & k & -> & Hz).
    destruct (vec_cases_left st leak h' b' HI Hg') as (t' & d' & vs' & -> & Hh' & Hz').
    apply (two_pois_step G HG (DAppend h h') st leak h h' t (pois_vec n k) None t' d' vs' ABool);
      auto; try (apply VL_pois; apply pois_vec_poisoned); try (cbn [names]; auto with datatypes; fail).
    + left. apply pois_vec_poisoned.
    + intros l HO. apply append_pois; auto; [apply VL_pois; apply pois_vec_poisoned|].
      left. apply pois_vec_poisoned.
Qed.

Lemma size_of_rep t d xs : Rep G t d xs -> vd_element_size (VecCopy d (build_vtable (V := V) t)) = t_size (G t).
Proof using HG. intros HR. apply (vc_size_rep G HG t d _ xs HR). Qed.

Lemma range_rep st h i t d xs :
  dget st h = Some (OVec (VecCopy d (build_vtable t))) -> Rep G t d xs ->
  index_in_range P st h i -> fits P (i + 1) (t_size (G t)).
Proof using HG. intros Hg HR. unfold index_in_range. rewrite Hg, (size_of_rep t d xs HR). auto. Qed.

Lemma range_holds st h i t d vs :
  dget st h = Some (OVec (VecCopy d (build_vtable t))) -> vec_left G t d vs ->
  index_in_range P st h i -> ~ Poisoned d -> fits P (i + 1) (t_size (G t)).
Proof using HG.
  intros Hg Hh Hin Hnp. inversion Hh as [xs HR E|HP E]; [|contradiction].
  eapply range_rep; eauto.
Qed.

Lemma step_swap_elems h i h' j st leak :
  dinv G st leak -> index_in_range P st h i -> index_in_range P st h' j ->
  dstep_post G (DSwapElems h i h' j) st leak (run_dstep P G (DSwapElems h i h' j) st).
Proof using HG HL.
  intros HI Hin Hin'. cbn [run_dstep]. destruct (dget st h) as [[b|v]|] eqn:Hg; [|no_vec HI h|no_vec HI h].
  destruct (dget st h') as [[b'|v']|] eqn:Hg'; [|no_vec HI h'|no_vec HI h'].
  destruct (Nat.eqb_spec h h') as [Eh|Hne].
  { apply DS_invalid. intros lst HRel.
    destruct (vec_same st leak h h' Eh _ Hg HI lst HRel) as (a & Ha & Ha' & Hr). cbn [dyn_step].
    rewrite Ha, Ha'. inversion Hr; subst; try rewrite Nat.eqb_refl; reflexivity. }
  assert (Hsh : forall (r : outcome unit * vecdyn V * vecdyn V),
    (let '(o, b1, b1') := r in
     (oreport (let! _ := o in Ret AUnit),
      dset (dset st h (Some (OVec b1)) (d_world st)) h' (Some (OVec b1')) (d_world st))) =
    (let '(o, b1, b1', w') := (let '(o, b, b') := r in (o, b, b', d_world st)) in
     (oreport (let! a := o in Ret (dunit a)),
      dset (dset st h (Some (OVec b1)) w') h' (Some (OVec b1')) w'))).
  { intros [[o b1] b1']. destruct o; reflexivity. }
  rewrite Hsh. clear Hsh.
  destruct (vec_cases G st leak h b HI Hg) as [(t & d & xs & -> & HR)|Hp].
  - pose proof (range_rep st h i t d xs Hg HR Hin) as Hf.
    destruct (vec_cases G st leak h' b' HI Hg') as [(t' & d' & ys & -> & HR')|Hp'].
    + pose proof (range_rep st h' j t' d' ys Hg' HR' Hin') as Hf'.
      eapply (two_step G HG (DSwapElems h i h' j) st leak h h' t d xs t' d' ys dunit); auto.
      * intros l HO. now apply swap_two.
      * intros lst HRel Hl Hl' Ht a xs' ys' Hs. apply D_ret. cbn [dyn_step]. rewrite Hl, Hl'.
        rewrite (proj2 (Nat.eqb_neq h h') Hne).
        destruct (nthN xs i) as [x|]; [|discriminate]. destruct (nthN ys j) as [y|]; [|discriminate].
        destruct (t =? t'); injection Hs as <- <- <-.
        -- reflexivity.
        -- unfold obs_. do 2 f_equal. rewrite <- (lset_same _ _ _ Hl'), <- (lset_same _ _ _ Hl) at 1.
           cbn [l_objs l_trace]. reflexivity.
      * intros lst HRel Hl Hl' Ht left left' (Hm & -> & ->). apply D_panic. cbn [step_leaves left_obj].
        rewrite Hl, Hl'. split; [exact Hne|]. split; [exact Hm|].
        rewrite (lget_set_same _ _ _ Hl), (lget_set_same _ _ _ Hl'). now destruct lst.
    + destruct Hp' as (t' & n & k & -> & Hz').
      apply (two_pois_step G HG (DSwapElems h i h' j) st leak h h' t d (Some xs) t' (pois_vec n k) None dunit);
        auto; try (now constructor); try (apply VL_pois; apply pois_vec_poisoned);
        try (cbn [names]; auto with datatypes; fail).
      * apply HR.
      * intros l HO. apply swap_pois; auto; [now constructor|apply VL_pois; apply pois_vec_poisoned| |].
        -- right. apply pois_vec_poisoned.
        -- intros Hn. destruct Hn. apply pois_vec_poisoned.
  - destruct Hp as (t & n & k & -> & Hz).
    destruct (vec_cases_left st leak h' b' HI Hg') as (t' & d' & vs' & -> & Hh' & Hz').
    apply (two_pois_step G HG (DSwapElems h i h' j) st leak h h' t (pois_vec n k) None t' d' vs' dunit);
      auto; try (apply VL_pois; apply pois_vec_poisoned); try (cbn [names]; auto with datatypes; fail).
    + left. apply pois_vec_poisoned.
    + intros l HO. apply swap_pois; auto; [apply VL_pois; apply pois_vec_poisoned| | |].
      * left. apply pois_vec_poisoned.
      * intros Hn. destruct Hn. apply pois_vec_poisoned.
      * now apply (range_holds st h' j t' d' vs').
Qed.

Lemma step_eq h h' st leak :
  dinv G st leak -> dstep_post G (DEq h h') st leak (run_dstep P G (DEq h h') st).
Proof using HG HL.
  intros HI. cbn [run_dstep]. destruct (dget st h) as [[b|v]|] eqn:Hg; [|no_vec HI h|no_vec HI h].
  destruct (dget st h') as [[b'|v']|] eqn:Hg'; [|no_vec HI h'|no_vec HI h'].
  assert (Hpois : forall t d vs t' d' vs', b = VecCopy d (build_vtable t) -> b' = VecCopy d' (build_vtable t') ->
            t_size (G t) <> 0 -> t_size (G t') <> 0 ->
            vec_left G t d vs -> vec_left G t' d' vs' -> Poisoned d \/ Poisoned d' ->
            dstep_post G (DEq h h') st leak (oreport (let! e := vd_eq P G b b' in Ret (ABool e)), st)).
  { intros t d vs t' d' vs' -> -> Hz Hz' Hh Hh' Hpp. edestruct eq_pois as [p ->]; eauto.
    cbn [obind oreport]. apply panic_same; auto. intros lst HRel. destruct Hpp as [Hp|Hp].
    - rewrite (poisoned_shape _ Hp) in Hg.
      apply (lost_same G lst _ _ h); [now left|exact (drel_pois G st lst h _ _ t HRel Hg Hz)|now split].
    - rewrite (poisoned_shape _ Hp) in Hg'.
      apply (lost_same G lst _ _ h'); [right; now left|exact (drel_pois G st lst h' _ _ t' HRel Hg' Hz')|now split]. }
  destruct (vec_cases G st leak h b HI Hg) as [(t & d & xs & -> & HR)|Hp].
  - destruct (vec_cases G st leak h' b' HI Hg') as [(t' & d' & ys & -> & HR')|Hp'].
    + rewrite (eq_ok P G HG t d xs t' d' ys HR HR'). cbn [obind oreport]. apply ret_same; auto.
      intros lst HRel. apply D_ret. cbn [dyn_step].
      rewrite (drel_get_as G st lst h _ _ HRel Hg (OR_vec G t d xs HR)).
      rewrite (drel_get_as G st lst h' _ _ HRel Hg' (OR_vec G t' d' ys HR')). reflexivity.
    + destruct Hp' as (t' & n & k & -> & Hz').
      apply (Hpois t d (Some xs) t' (pois_vec n k) None eq_refl eq_refl (rep_sized _ _ _ _ HR) Hz');
        [now constructor|apply VL_pois; apply pois_vec_poisoned|].
      right. apply pois_vec_poisoned.
  - destruct Hp as (t & n & k & -> & Hz).
    destruct (vec_cases_left st leak h' b' HI Hg') as (t' & d' & vs' & -> & Hh' & Hz').
    apply (Hpois t (pois_vec n k) None t' d' vs' eq_refl eq_refl Hz Hz');
      [apply VL_pois; apply pois_vec_poisoned|exact Hh'|].
    left. apply pois_vec_poisoned.
Qed.

(** ** One vector *)

Lemma gives_call h c : step_gives G (DCall h c) = step_gives G (DCall 0 c).
Proof. destruct c; reflexivity. Qed.

Lemma step_call h c st leak :
  dinv G st leak -> dcall_typed G c ->
  (match dget st h with Some (OVec b) => dcall_in_range P c b | _ => True end) ->
  dstep_post G (DCall h c) st leak (run_dstep P G (DCall h c) st).
Proof using HG HC HQ HL.
  intros HI Hty Hin. cbn [run_dstep]. destruct (dget st h) as [[b|v]|] eqn:Hg; [|no_vec HI h|no_vec HI h].
  assert (Hsh : forall (r : outcome dobs * vecdyn V * world),
    (let '(o, b', w') := r in (oreport o, dset st h (Some (OVec b')) w')) =
    (let '(o, b', w') := r in (oreport (let! a := o in Ret (id a)), dset st h (Some (OVec b')) w'))).
  { intros [[o b1] w1]. destruct o; reflexivity. }
  rewrite Hsh. clear Hsh.
  destruct (vec_cases G st leak h b HI Hg) as [(t & d & xs & -> & HR)|(t & n & k & -> & Hz)].
  - eapply (loc_step G HG (DCall h c) st leak h t d xs id); eauto.
    + intros l HO. rewrite gives_call. eapply run_dcall_loc; eauto.
    + intros lst HRel Hl Ht a ys tr Hs. apply D_ret. cbn [dyn_step]. rewrite Hl, Ht, Hs. reflexivity.
    + intros lst HRel Hl Ht left tr Hm. apply D_panic. cbn [step_leaves]. rewrite Hl, Ht.
      exists left, tr. auto.
  - eapply (pois_step G HG (DCall h c) st leak h t n k id); eauto.
    + intros l HO. rewrite gives_call. eapply dpois_frame; [|exact HO]. eapply run_dcall_pois; eauto.
    + now left.
    + intros lst. destruct c; cbn [handed step_gives]; now rewrite ?given_owned.
Qed.

Lemma step_push h k st leak :
  dinv G st leak -> dstep_in_range P (DPush h k) st ->
  dstep_post G (DPush h k) st leak (run_dstep P G (DPush h k) st).
Proof using HG HC HQ HL.
  intros HI Hin. cbn [dstep_in_range] in Hin. cbn [run_dstep].
  destruct (dget st h) as [[b|v]|] eqn:Hg; [|no_vec HI h|no_vec HI h].
  assert (Hnv : (forall v, dget st k <> Some (OVal v)) ->
            dstep_post G (DPush h k) st leak (dinvalid st)).
  { intros Hno. apply (not_a_val st leak _ k HI Hno). intros lst Hl. cbn [dyn_step].
    destruct (lget lst h) as [[? ?|? ? ?|]|]; try reflexivity.
    destruct (lget lst k) as [[? ?|? ? ?|]|]; try reflexivity. exfalso. now eapply Hl. }
  destruct (dget st k) as [[b'|v]|] eqn:Hg'; [apply Hnv; congruence| |apply Hnv; congruence].
  clear Hnv. destruct (val_cases G st leak k v HI Hg') as (t' & x & HV).
  destruct (vl_store v) as [bo|] eqn:Ebo.
  - destruct (vec_cases G st leak h b HI Hg) as [(t & d & xs & -> & HR)|(t & n & c & -> & Hz)].
    + eapply (loc_step2 G HG (DPush h k) st leak h k t d xs v t' x ABool); eauto.
      * intros l HO. eapply push_loc; eauto. intros ->.
        rewrite (vp_type _ _ _ _ HV), (vp_align _ _ _ _ HV) in Hin. apply Hin.
        unfold vd_element_type_id, vc_element_type_id. cbn [vc_data].
        now rewrite (rep_type G _ _ _ HR).
      * intros lst HRel Hl Hl' Ht a ys tr Hs. apply D_ret. cbn [dyn_step]. rewrite Hl, Hl'.
        unfold is_small. rewrite Ebo. destruct (t' =? t); injection Hs as <- <- <-.
        -- rewrite <- Ht. reflexivity.
        -- unfold obs_. do 2 f_equal. unfold lset, lemit, lset_trace. cbn [l_objs l_trace].
           rewrite Ht. f_equal. f_equal.
           now rewrite (lget_set_same _ _ _ Hl).
      * intros lst HRel Hl Hl' Ht left tr (E & -> & -> & Hm). rewrite <- Ht. apply D_panic.
        cbn [step_leaves]. rewrite Hl, Hl'. unfold is_small. rewrite Ebo. auto.
    + eapply (pois_step2 G HG (DPush h k) st leak h k t n c v t' x ABool); eauto.
      2:{ now left. }
      2:{ intros lst Hl. cbn [consume]. rewrite Hl. unfold is_small. now rewrite Ebo. }
      2:{ intros lst Hl. cbn [handed]. rewrite Hl. unfold is_small. now rewrite Ebo. }
      intros l HO. eapply push_pois; eauto. intros ->.
      rewrite (vp_type _ _ _ _ HV) in Hin.
      change (vd_element_type_id (VecCopy (pois_vec n c) (build_vtable t))) with unit_id in Hin.
      change (vd_element_size (VecCopy (pois_vec n c) (build_vtable t))) with 0 in Hin.
      destruct (Hin eq_refl) as [_ Hne]. now apply Hne.
  - apply DS_invalid. intros lst HRel. cbn [dyn_step].
    destruct (drel_get G st lst h _ HRel Hg) as (a & Ha & Hr). rewrite Ha. inversion Hr; subst; [|reflexivity].
    rewrite (drel_get_as G st lst k _ _ HRel Hg' (OR_val G v t' x HV)). unfold is_small. rewrite Ebo.
    reflexivity.
Qed.

Lemma step_assign h i k st leak :
  dinv G st leak -> index_in_range P st h i ->
  dstep_post G (DAssign h i k) st leak (run_dstep P G (DAssign h i k) st).
Proof using HG HC HQ HL.
  intros HI Hin. cbn [run_dstep].
  destruct (dget st h) as [[b|v]|] eqn:Hg; [|no_vec HI h|no_vec HI h].
  assert (Hnv : (forall v, dget st k <> Some (OVal v)) ->
            dstep_post G (DAssign h i k) st leak (dinvalid st)).
  { intros Hno. apply (not_a_val st leak _ k HI Hno). intros lst Hl. cbn [dyn_step].
    destruct (lget lst h) as [[? ?|? ? ?|]|]; try reflexivity.
    destruct (lget lst k) as [[? ?|? ? ?|]|]; try reflexivity. exfalso. now eapply Hl. }
  destruct (dget st k) as [[b'|v]|] eqn:Hg'; [apply Hnv; congruence| |apply Hnv; congruence].
  clear Hnv. destruct (val_cases G st leak k v HI Hg') as (t' & x & HV).
  change (dstep_post G (DAssign h i k) st leak
    (let '(o, b', w') := vd_assign P G i v b (d_world st) in
     (oreport (let! a := o in Ret (dunit a)), dset (dset st h (Some (OVec b')) w') k None w'))).
  destruct (vec_cases G st leak h b HI Hg) as [(t & d & xs & -> & HR)|(t & n & c & -> & Hz)].
  - eapply (loc_step2 G HG (DAssign h i k) st leak h k t d xs v t' x dunit); eauto.
    + intros l HO. eapply assign_loc; eauto. eapply range_rep; eauto.
    + intros lst HRel Hl Hl' Ht a ys tr Hs. apply D_ret. cbn [dyn_step]. rewrite Hl, Hl'.
      destruct (nthN xs i) as [old|]; [|discriminate]. destruct (t =? t'); injection Hs as <- <- <-.
      * rewrite <- Ht. reflexivity.
      * unfold obs_. do 2 f_equal. unfold lset, lemit, lset_trace. cbn [l_objs l_trace].
        rewrite Ht. f_equal. f_equal.
        now rewrite (lget_set_same _ _ _ Hl).
    + intros lst HRel Hl Hl' Ht left tr (Hm & -> & ->). rewrite <- Ht. apply D_panic.
      cbn [step_leaves left_obj]. rewrite Hl, Hl'. split; [exact Hm|].
      rewrite (lget_set_same _ _ _ Hl). reflexivity.
  - eapply (pois_step2 G HG (DAssign h i k) st leak h k t n c v t' x dunit); eauto.
    + intros l HO. eapply assign_pois; eauto.
    + now left.
    + intros lst Hl. cbn [consume]. now rewrite Hl.
    + intros lst Hl. cbn [handed]. now rewrite Hl.
Qed.

(** A vector and a borrowed value. *)
Lemma vec_src_step {A} s st leak h src (k : A -> dobs)
    (f : vref V -> vecdyn V -> world -> outcome A * vecdyn V * world)
    (lspec : tyid -> list payload -> tval -> list event -> option (A * list payload * list event))
    (lmay : tyid -> list payload -> tval -> list event -> option (list payload) -> list event -> Prop) :
  dinv G st leak -> source_typed G src -> source_in_range P st src ->
  (forall r tv t d xs l, dget st h = Some (OVec (VecCopy d (build_vtable t))) -> Rep G t d xs ->
     Owns (d_world st) (vv_own d ++ l) -> ref_ok G r (Some tv) ->
     loc_post G t xs (build_vtable t) (d_world st) l [] (lspec t xs tv (w_trace (d_world st)))
       (lmay t xs tv (w_trace (d_world st))) (f r (VecCopy d (build_vtable t)) (d_world st))) ->
  (forall r t d xs, dget st h = Some (OVec (VecCopy d (build_vtable t))) -> Rep G t d xs ->
     ref_ok G r None ->
     exists spec, (forall a ys tr, spec = Some (a, ys, tr) -> ys = xs /\ tr = w_trace (d_world st)) /\
     forall l, Owns (d_world st) (vv_own d ++ l) ->
     loc_post G t xs (build_vtable t) (d_world st) l [] spec
       (fun left tr => left = Some xs /\ tr = w_trace (d_world st))
       (f r (VecCopy d (build_vtable t)) (d_world st))) ->
  (forall r rv t n c, t_size (G t) <> 0 -> ref_ok G r rv ->
     dpois G (build_vtable t) (d_world st) [] (f r (VecCopy (pois_vec n c) (build_vtable t)) (d_world st))) ->
  step_gives G s = [] -> (forall a, step_takes G s (DObs (k a)) = []) ->
  (forall a, loses s (DObs (k a)) = false) ->
  (forall lst, (forall t xs, lget lst h <> Some (LVec t xs)) -> dyn_step G s lst = Some (DInvalid, lst)) ->
  (forall lst t xs, lget lst h = Some (LVec t xs) -> lsource lst src = inl tt ->
     dyn_step G s lst = Some (DInvalid, lst)) ->
  (forall lst t xs tv, lget lst h = Some (LVec t xs) -> lsource lst src = inr (Some tv) ->
     forall a ys tr, lspec t xs tv (l_trace lst) = Some (a, ys, tr) ->
       dyn_step G s lst = Some (DObs (k a), LState (list_set (l_objs lst) h (Some (LVec t ys))) tr)) ->
  (forall lst t xs tv, lget lst h = Some (LVec t xs) -> lsource lst src = inr (Some tv) ->
     forall left tr, lmay t xs tv (l_trace lst) left tr ->
       step_leaves G s lst (LState (list_set (l_objs lst) h (Some (left_obj t left))) tr)) ->
  (forall lst t xs, lget lst h = Some (LVec t xs) -> lsource lst src = inr None ->
     dacts G lst s None lst) ->
  In h (names s) -> incl (source_names src) (names s) ->
  (forall lst, consume s lst = l_objs lst /\ handed G s lst = []) ->
  dstep_post G s st leak
    match dget st h, get_source P G st src with
    | Some (OVec b), inr (Ret r) =>
        let '(o, b', w') := f r b (d_world st) in
        (oreport (let! a := o in Ret (k a)), dset st h (Some (OVec b')) w')
    | Some (OVec b), inr o => (retype o, st)
    | _, _ => dinvalid st
    end.
Proof using HG.
  intros HI Hty Hin Hloc Hlocp Hpois Hgv Htk Hls Hi1 Hi2 Hspec Hmay Hpan Hnm Hnms Hcon.
  destruct (dget st h) as [[b|v]|] eqn:Hg;
    [|apply (not_a_vec st leak s h HI); [congruence|exact Hi1]
     |apply (not_a_vec st leak s h HI); [congruence|exact Hi1]].
  assert (Hlst : forall lst, drel G st lst ->
            (exists t xs, lget lst h = Some (LVec t xs)) \/ lget lst h = Some LLost).
  { intros lst HRel. destruct (drel_get G st lst h _ HRel Hg) as (a & Ha & Hr). inversion Hr; subst; eauto. }
  destruct (get_source_ok P G HG st leak src HI Hty Hin) as [Hl|p Hl|p h0 Hin0 Hlost|r t' v Hr Hl|r h0 Hr Hin0 Hlost].
  - apply DS_invalid. intros lst HRel. destruct (Hlst lst HRel) as [(t & xs & Ht)|Ht].
    + eapply Hi2; eauto.
    + apply Hi1. congruence.
  - cbn [retype]. apply panic_same; auto. intros lst HRel.
    destruct (Hlst lst HRel) as [(t & xs & Ht)|Ht].
    + eapply Hpan; eauto.
    + apply (lost_same G lst _ _ h); [exact Hnm|exact Ht|apply Hcon].
  - cbn [retype]. apply panic_same; auto. intros lst HRel.
    apply (lost_same G lst _ _ h0); [now apply Hnms|now apply Hlost|apply Hcon].
  - destruct (vec_cases G st leak h b HI Hg) as [(t & d & xs & -> & HR)|(t & n & c & -> & Hz)].
    + eapply (loc_step G HG s st leak h t d xs k); eauto.
      * intros l HO. rewrite Hgv. eapply (Hloc r (t', v)); eauto.
      * intros lst HRel Hlh Ht a ys tr Hs. apply D_ret. eapply Hspec; eauto. rewrite Ht. exact Hs.
      * intros lst HRel Hlh Ht left tr Hm. apply D_panic. eapply Hmay; eauto. rewrite Ht. exact Hm.
    + eapply (pois_step G HG s st leak h t n c k); eauto.
      * intros l HO. rewrite Hgv. eapply dpois_frame; [|exact HO]. eapply Hpois; eauto.
      * intros lst. apply Hcon.
      * intros lst. rewrite Hgv. apply Hcon.
  - destruct (vec_cases G st leak h b HI Hg) as [(t & d & xs & -> & HR)|(t & n & c & -> & Hz)].
    + destruct (Hlocp r t d xs eq_refl HR Hr) as (spec & Hrng & Hsp).
      eapply (loc_step G HG s st leak h t d xs k spec); eauto.
      * intros l HO. rewrite Hgv. now apply Hsp.
      * intros lst HRel Hlh Ht a ys tr Hs. destruct (Hrng _ _ _ Hs) as [-> ->]. rewrite <- Ht.
        rewrite (lset_same _ _ _ Hlh).
        apply (lost_same G lst _ _ h0); [now apply Hnms|now apply Hlost|apply Hcon].
      * intros lst HRel Hlh Ht left tr [-> ->]. cbn [left_obj]. rewrite <- Ht, (lset_same _ _ _ Hlh).
        apply (lost_same G lst _ _ h0); [now apply Hnms|now apply Hlost|apply Hcon].
    + eapply (pois_step G HG s st leak h t n c k); eauto.
      * intros l HO. rewrite Hgv. eapply dpois_frame; [|exact HO]. eapply Hpois; eauto.
      * intros lst. apply Hcon.
      * intros lst. rewrite Hgv. apply Hcon.
Qed.

Ltac src_invalid :=
  intros; cbn [dyn_step];
  repeat match goal with
         | H : uses _ _ = _ |- _ => rewrite H; clear H
         | H : lsource _ _ = _ |- _ => rewrite H; clear H
         | H : lget _ _ = _ |- _ => rewrite H; clear H
         end; reflexivity.
Ltac src_novec Hu :=
  let lst := fresh in let Hl := fresh in
  intros lst Hl; cbn [dyn_step]; rewrite Hu;
  destruct (lget lst _) as [[? ?|? ? ?|]|]; try reflexivity; exfalso; now eapply Hl.

Lemma step_push_cloned h src st leak :
  dinv G st leak -> source_typed G src -> source_in_range P st src ->
  dstep_post G (DPushCloned h src) st leak (run_dstep P G (DPushCloned h src) st).
Proof using HG HC HL.
  intros HI Hty Hin. cbn [run_dstep]. destruct (uses h src) eqn:Hu.
  { apply DS_invalid. intros lst _. cbn [dyn_step]. now rewrite Hu. }
  apply (vec_src_step (DPushCloned h src) st leak h src ABool (vd_push_cloned P G)
    (fun t xs tv tr => if t =? fst tv then
       match t_clone (G (fst tv)) tr (snd tv) with
       | Some c => Some (true, xs ++ [c], tr ++ [EvClone (fst tv) (snd tv) c])
       | None => None
       end
     else Some (false, xs, tr))
    (fun t xs tv tr left tr' => t = fst tv /\ left = None /\
       ((t_clone (G (fst tv)) tr (snd tv) = None \/ no_room G t (lenN xs) (lenN xs + 1)) /\ tr' = tr \/
        exists c, t_clone (G (fst tv)) tr (snd tv) = Some c /\
          odd_growth_to G t (lenN xs) (lenN xs + 1) /\ tr' = tr ++ [EvClone (fst tv) (snd tv) c]))); auto;
    try (cbn [names]; auto with datatypes; fail).
  - intros r [t' y] t d xs l _ HR HO Hr. cbn [fst snd]. eapply push_cloned_loc; eauto.
  - intros r t d xs _ HR Hr. exists (Some (false, xs, w_trace (d_world st))). split.
    + intros a ys tr [= <- <- <-]. auto.
    + intros l HO. eapply loc_spec; [reflexivity| |eapply push_cloned_loc_pois; eauto]. contradiction.
  - intros r rv t n c Hz Hr. eapply push_cloned_pois; eauto.
  - src_novec Hu.
  - src_invalid.
  - intros lst t xs [t' y] Hl Hs a ys tr. cbn [fst snd dyn_step]. rewrite Hu, Hl, Hs.
    destruct (t =? t').
    + destruct (t_clone (G t') (l_trace lst) y) as [c|]; [|discriminate]. intros [= <- <- <-]. reflexivity.
    + intros [= <- <- <-]. unfold obs_. now rewrite (lset_same _ _ _ Hl).
  - intros lst t xs [t' y] Hl Hs left tr (E & -> & Hm). cbn [fst snd step_leaves] in *. rewrite Hl, Hs.
    split; [exact E|]. destruct Hm as [[Hm ->]|(c & Ec & Ho & ->)]; [left|right].
    + split; [exact Hm|]. reflexivity.
    + exists c. auto.
  - intros lst t xs Hl Hs. apply D_panic. cbn [step_leaves]. now rewrite Hl, Hs.
Qed.

Lemma step_clone_from h i src st leak :
  dinv G st leak -> source_typed G src -> source_in_range P st src -> index_in_range P st h i ->
  dstep_post G (DCloneFrom h i src) st leak (run_dstep P G (DCloneFrom h i src) st).
Proof using HG HC HQ HL.
  intros HI Hty Hin Hix. cbn [run_dstep]. destruct (uses h src) eqn:Hu.
  { apply DS_invalid. intros lst _. cbn [dyn_step]. now rewrite Hu. }
  set (f := fun r b w => let '(o, b', w') := vd_clone_from_other P G i r b w in
                         (let! a := o in Ret (cf_obs a), b', w')).
  match goal with |- dstep_post _ _ _ _ ?res =>
    replace res with
      (match dget st h, get_source P G st src with
       | Some (OVec b), inr (Ret r) =>
           let '(o, b', w') := f r b (d_world st) in
           (oreport (let! a := o in Ret (ABool a)), dset st h (Some (OVec b')) w')
       | Some (OVec b), inr o => (retype o, st)
       | _, _ => dinvalid st
       end)
  end.
  2:{ destruct (dget st h) as [[b|v]|]; try reflexivity.
      destruct (get_source P G st src) as [|[r| | |]]; try reflexivity. unfold f.
      destruct (vd_clone_from_other P G i r b (d_world st)) as [[o b'] w']. destruct o as [[|]| | |]; reflexivity. }
  apply (vec_src_step (DCloneFrom h i src) st leak h src ABool f
    (fun t xs tv tr =>
     match nthN xs i with
     | Some old =>
         if t =? fst tv then
           match t_clone (G (fst tv)) tr (snd tv) with
           | Some c => Some (true, list_set xs (N.to_nat i) c,
                             tr ++ [EvClone (fst tv) (snd tv) c] ++ drops G (fst tv) [old])
           | None => None
           end
         else Some (false, xs, tr)
     | None => None
     end)
    (fun t xs tv tr left tr' => left = Some xs /\ tr' = tr /\
       (nthN xs i = None \/ t = fst tv /\ t_clone (G (fst tv)) tr (snd tv) = None))); auto;
    try (cbn [names]; auto with datatypes; fail).
  - intros r [t' y] t d xs l Hg HR HO Hr. cbn [fst snd]. unfold f. eapply clone_from_loc; eauto.
    eapply range_rep; eauto.
  - intros r t d xs Hg HR Hr.
    exists (match nthN xs i with Some _ => Some (false, xs, w_trace (d_world st)) | None => None end). split.
    + intros a ys tr. destruct (nthN xs i); [|discriminate]. intros [= <- <- <-]. auto.
    + intros l HO. unfold f. eapply clone_from_loc_pois; eauto. eapply range_rep; eauto.
  - intros r rv t n c Hz Hr. unfold f. eapply clone_from_pois; eauto.
  - src_novec Hu.
  - src_invalid.
  - intros lst t xs [t' y] Hl Hs a ys tr. cbn [fst snd dyn_step]. rewrite Hu, Hl, Hs.
    destruct (nthN xs i) as [old|]; [|discriminate].
    destruct (t =? t').
    + destruct (t_clone (G t') (l_trace lst) y) as [c|]; [|discriminate]. intros [= <- <- <-]. reflexivity.
    + intros [= <- <- <-]. unfold obs_. now rewrite (lset_same _ _ _ Hl).
  - intros lst t xs [t' y] Hl Hs left tr (-> & -> & Hm). cbn [fst snd step_leaves left_obj] in *.
    rewrite Hl, Hs. split; [exact Hm|]. now apply lset_same.
  - intros lst t xs Hl Hs. apply D_panic. cbn [step_leaves]. now rewrite Hl, Hs.
Qed.

Lemma step_clone_from_all h src st leak :
  dinv G st leak -> source_typed G src -> source_in_range P st src ->
  dstep_post G (DCloneFromAll h src) st leak (run_dstep P G (DCloneFromAll h src) st).
Proof using HG HC HQ HL.
  intros HI Hty Hin. cbn [run_dstep]. destruct (uses h src) eqn:Hu.
  { apply DS_invalid. intros lst _. cbn [dyn_step]. now rewrite Hu. }
  apply (vec_src_step (DCloneFromAll h src) st leak h src dunit (vd_iter_mut_clone P G)
    (fun t xs tv tr =>
     if t =? fst tv then
       let '(ys, ok, tr') := replace_seq G (fst tv) (repeat (snd tv) (List.length xs)) xs tr in
       if ok then Some (tt, ys, tr') else None
     else Some (tt, xs, tr))
    (fun t xs tv tr left tr' => t = fst tv /\
       exists ys, replace_seq G (fst tv) (repeat (snd tv) (List.length xs)) xs tr = (ys, false, tr') /\
         left = Some ys)); auto;
    try (cbn [names]; auto with datatypes; fail).
  - intros r [t' y] t d xs l Hg HR HO Hr. cbn [fst snd]. eapply iter_mut_clone_loc; eauto.
  - intros r t d xs Hg HR Hr. exists (Some (tt, xs, w_trace (d_world st))). split.
    + intros a ys tr [= <- <- <-]. auto.
    + intros l HO. eapply loc_spec; [reflexivity| |eapply iter_mut_clone_loc_pois; eauto]. contradiction.
  - intros r rv t n c Hz Hr. eapply iter_mut_clone_pois; eauto.
  - src_novec Hu.
  - src_invalid.
  - intros lst t xs [t' y] Hl Hs a ys tr. cbn [fst snd dyn_step]. rewrite Hu, Hl, Hs.
    destruct (t =? t').
    + destruct (replace_seq G t' (repeat y (List.length xs)) xs (l_trace lst)) as [[zs ok] tr'].
      destruct ok; [|discriminate]. intros [= <- <- <-]. reflexivity.
    + intros [= <- <- <-]. unfold obs_. now rewrite (lset_same _ _ _ Hl).
  - intros lst t xs [t' y] Hl Hs left tr (E & ys & Hr & ->). cbn [fst snd step_leaves left_obj] in *.
    rewrite Hl, Hs. split; [exact E|]. exists ys, tr. auto.
  - intros lst t xs Hl Hs. apply D_panic. cbn [step_leaves]. now rewrite Hl, Hs.
Qed.

(** ** Owned values *)

Lemma step_box t v st leak :
  dinv G st leak -> is_value G t v -> dstep_post G (OBox t v) st leak (run_dstep P G (OBox t v) st).
Proof using HG HL.
  intros HI Hv. cbn [run_dstep].
  destruct (bv_new_rep G t v (d_world st) _ Hv (proj2 HI)) as (x & w' & -> & HV & [b Hb] & HO & Ht).
  cbn [new_obj]. eapply new_val_step; eauto.
  - intros q. rewrite Ht. cbn [step_gives]. cnts q. lia.
  - intros lst HRel Htr. apply D_ret. cbn [dyn_step]. unfold is_small. rewrite Hb, Ht, <- Htr. reflexivity.
Qed.

Lemma step_small t v st leak :
  dinv G st leak -> is_value G t v -> dstep_post G (OSmall t v) st leak (run_dstep P G (OSmall t v) st).
Proof using HG HL.
  intros HI Hv. cbn [run_dstep].
  pose proof (sv_try_new_rep (V := V) G t v (d_world st) _ Hv (proj2 HI)) as H.
  destruct (t_size (G t) =? 8) eqn:E8.
  - destruct H as (x & w' & -> & HV & Hb & HO & Ht).
    eapply new_val_step; eauto.
    + intros q. rewrite Ht. cbn [step_gives]. cnts q. lia.
    + intros lst HRel Htr. apply D_ret. cbn [dyn_step]. unfold is_small. rewrite E8, Hb, Ht, <- Htr. reflexivity.
  - rewrite H, dworld_same. apply (DS_ret G _ st leak (ABool false) st [] (owned_vals G t [v])).
    + exact HI.
    + intros q. cbn [step_gives step_takes]. cnts q. lia.
    + discriminate.
    + intros lst HRel. exists lst. split; [|exact HRel]. apply D_ret. cbn [dyn_step]. now rewrite E8.
Qed.

Lemma step_clone_value s sm t x st leak r :
  dinv G st leak -> is_value G t x ->
  r = (if sm : bool then clone_small_of G (enc G t x) t (t_align (G t)) (build_vtable t) (d_world st)
       else clone_value_of G (enc G t x) t (t_align (G t)) (build_vtable t) (d_world st)) ->
  step_gives G s = [] -> step_takes G s (DObs AUnit) = [] ->
  (forall lst, drel G st lst -> dyn_step G s lst = lclone_val G sm (t, x) lst) ->
  (forall lst lst', drel G st lst -> clone_leaves G sm (t, x) lst lst' -> step_leaves G s lst lst') ->
  dstep_post G s st leak (new_obj (V := V) OVal r st).
Proof using HG HC HQ HL.
  intros HI Hx -> Hgv Htk Hspec Hpan. destruct sm.
  - pose proof (clone_small_rep (V := V) G HC HQ t x (d_world st) _ Hx (proj2 HI)) as H.
    destruct (t_clone (G t) (w_trace (d_world st)) x) as [c|] eqn:Ec.
    + destruct (t_size (G t) =? 8) eqn:E8.
      * destruct H as (v & w' & -> & HV & Hb & HO & Ht). cbn [new_obj].
        eapply new_val_step; eauto.
        -- intros q. rewrite Ht, Hgv. cnts q. lia.
        -- intros lst HRel Htr. apply D_ret. rewrite (Hspec lst HRel). unfold lclone_val. rewrite Htr, Ec, E8.
           unfold is_small. rewrite Hb, Ht, <- Htr. reflexivity.
      * destruct H as [p ->]. cbn [new_obj retype].
        apply (DS_panic G _ st leak p _ [] []); [apply (dinv_world G st leak [] _ HI); apply Owns_set_tr; exact (proj2 HI)| |].
        -- intros q. rewrite stored_world, Hgv. cbn [dworld d_world]. rewrite set_tr_trace. cnts q. lia.
        -- intros lst HRel. eexists. split.
           { apply D_panic. apply (Hpan lst _ HRel). unfold clone_leaves. rewrite <- (proj2 HRel), Ec.
             apply N.eqb_neq in E8. repeat split; auto. }
           split; [apply HRel|]. cbn [dworld d_world lemit lset_trace l_trace]. rewrite set_tr_trace.
           now rewrite (proj2 HRel).
    + rewrite H. cbn [new_obj retype]. rewrite dworld_same. apply panic_same; auto.
      intros lst HRel. apply D_panic. apply (Hpan lst _ HRel). unfold clone_leaves.
      now rewrite <- (proj2 HRel), Ec.
  - pose proof (clone_value_rep (V := V) G HC t x (d_world st) _ Hx (proj2 HI)) as H.
    destruct (t_clone (G t) (w_trace (d_world st)) x) as [c|] eqn:Ec.
    + destruct H as (v & w' & -> & HV & [b Hb] & HO & Ht). cbn [new_obj].
      eapply new_val_step; eauto.
      * intros q. rewrite Ht, Hgv. cnts q. lia.
      * intros lst HRel Htr. apply D_ret. rewrite (Hspec lst HRel). unfold lclone_val. rewrite Htr, Ec.
        unfold is_small. rewrite Hb, Ht, <- Htr. reflexivity.
    + rewrite H. cbn [new_obj retype]. rewrite dworld_same. apply panic_same; auto.
      intros lst HRel. apply D_panic. apply (Hpan lst _ HRel). unfold clone_leaves.
      now rewrite <- (proj2 HRel), Ec.
Qed.

Lemma step_clone_box src st leak :
  dinv G st leak -> source_typed G src -> source_in_range P st src ->
  dstep_post G (OCloneBox src) st leak (run_dstep P G (OCloneBox src) st).
Proof using HG HC HQ HL.
  intros HI Hty Hin. cbn [run_dstep].
  destruct (get_source_ok P G HG st leak src HI Hty Hin) as [Hl|p Hl|p h0 Hin0 Hlost|r t v Hr Hl|r h0 Hr Hin0 Hlost].
  - apply DS_invalid. intros lst HR. cbn [dyn_step]. now rewrite (Hl lst HR).
  - cbn [retype]. apply panic_same; auto. intros lst HRel. apply D_panic. cbn [step_leaves].
    now rewrite (Hl lst HRel).
  - cbn [retype]. apply panic_same; auto. intros lst HRel.
    apply (lost_same G lst _ _ h0); [exact Hin0|now apply Hlost|now split].
  - inversion Hr as [t1 v1 H1 H2 H3 H4 H5 E|]; subst t1 v1.
    apply (step_clone_value (OCloneBox src) false t v); auto.
    + unfold vr_clone_value. now rewrite H1, H2, H3, H4.
    + intros lst HRel. cbn [dyn_step]. now rewrite (Hl lst HRel).
    + intros lst lst' HRel Hc. cbn [step_leaves]. now rewrite (Hl lst HRel).
  - inversion Hr as [|t0 H1 H2 H3 H4 H5 E]; subst.
    unfold vr_clone_value. rewrite H1, H4.
    rewrite (proj1 (clone_of_nil G t0 _ _ (d_world st) H5)). cbn [new_obj retype].
    rewrite dworld_same. apply panic_same; auto. intros lst HRel.
    apply (lost_same G lst _ _ h0); [exact Hin0|now apply Hlost|now split].
Qed.

Lemma step_clone_small src st leak :
  dinv G st leak -> source_typed G src -> source_in_range P st src ->
  dstep_post G (OCloneSmall src) st leak (run_dstep P G (OCloneSmall src) st).
Proof using HG HC HQ HL.
  intros HI Hty Hin. cbn [run_dstep].
  destruct (get_source_ok P G HG st leak src HI Hty Hin) as [Hl|p Hl|p h0 Hin0 Hlost|r t v Hr Hl|r h0 Hr Hin0 Hlost].
  - apply DS_invalid. intros lst HR. cbn [dyn_step]. now rewrite (Hl lst HR).
  - cbn [retype]. apply panic_same; auto. intros lst HRel. apply D_panic. cbn [step_leaves].
    now rewrite (Hl lst HRel).
  - cbn [retype]. apply panic_same; auto. intros lst HRel.
    apply (lost_same G lst _ _ h0); [exact Hin0|now apply Hlost|now split].
  - inversion Hr as [t1 v1 H1 H2 H3 H4 H5 E|]; subst t1 v1.
    apply (step_clone_value (OCloneSmall src) true t v); auto.
    + unfold vr_clone_small_value. now rewrite H1, H2, H3, H4.
    + intros lst HRel. cbn [dyn_step]. now rewrite (Hl lst HRel).
    + intros lst lst' HRel Hc. cbn [step_leaves]. now rewrite (Hl lst HRel).
  - inversion Hr as [|t0 H1 H2 H3 H4 H5 E]; subst.
    unfold vr_clone_small_value. rewrite H1, H4.
    rewrite (proj2 (clone_of_nil G t0 _ _ (d_world st) H5)). cbn [new_obj retype].
    rewrite dworld_same. apply panic_same; auto. intros lst HRel.
    apply (lost_same G lst _ _ h0); [exact Hin0|now apply Hlost|now split].
Qed.

Ltac no_val HI h :=
  apply (not_a_val _ _ _ h HI); [congruence|];
  let lst := fresh in let Hl := fresh in
  intros lst Hl; cbn [dyn_step];
  repeat match goal with
         | |- context [match lget ?l ?h with _ => _ end] =>
             let E := fresh in destruct (lget l h) as [[? ?|? ? ?|]|] eqn:E;
             try reflexivity; try (exfalso; eapply Hl; first [exact E | reflexivity])
         end; try reflexivity.

Lemma step_clone_val k st leak :
  dinv G st leak -> dstep_post G (OClone k) st leak (run_dstep P G (OClone k) st).
Proof using HG HC HQ HL.
  intros HI. cbn [run_dstep]. destruct (dget st k) as [[b|v]|] eqn:Hg; [no_val HI k| |no_val HI k].
  destruct (val_cases G st leak k v HI Hg) as (t & x & HV).
  apply (step_clone_value (OClone k) (is_small v) t x); auto.
  - apply (vp_val _ _ _ _ HV).
  - unfold is_small, vl_clone. destruct (vl_store v); unfold bv_clone, sv_clone, vr_clone_value, vr_clone_small_value, vl_as_ref; cbn [vr_bytes vr_type_id vr_alignment vr_vtable vt_as_ref];
      now rewrite (vp_bytes _ _ _ _ HV), (vp_type _ _ _ _ HV), (vp_align _ _ _ _ HV), (vp_table _ _ _ _ HV).
  - intros lst HRel. cbn [dyn_step]. now rewrite (drel_get_as G st lst k _ _ HRel Hg (OR_val G v t x HV)).
  - intros lst lst' HRel Hcl. cbn [step_leaves].
    now rewrite (drel_get_as G st lst k _ _ HRel Hg (OR_val G v t x HV)).
Qed.

Lemma step_drop_val k st leak :
  dinv G st leak -> dstep_post G (ODrop k) st leak (run_dstep P G (ODrop k) st).
Proof using HG HQ HL.
  intros HI. cbn [run_dstep]. destruct (dget st k) as [[b|v]|] eqn:Hg; [no_val HI k| |no_val HI k].
  destruct (dinv_out G st leak k _ HI Hg) as (rb & rv & HO & Hc & Hback).
  destruct (val_cases G st leak k v HI Hg) as (t & x & HV).
  rewrite (obj_ok_vals G HG _ _ (OK_rel G _ _ (OR_val G v t x HV))) in Hc. cbn [lobj_vals] in Hc.
  rewrite obj_blocks_own in HO.
  destruct (vl_drop_rep G HG HQ v t x (d_world st) _ HV HO) as (w' & -> & HO' & Ht).
  destruct (Hback None w' [] I HO') as [HI' Hc']. cbn [slot_vals] in Hc'. cbn [obind oreport].
  apply (DS_ret G _ st leak AUnit _ [] []); [exact HI'| |now split|].
  - intros q. rewrite Hc, Hc'. cbn [dset d_world step_gives step_takes]. rewrite Ht. cnts q. lia.
  - intros lst HRel. pose proof (drel_get_as G st lst k _ _ HRel Hg (OR_val G v t x HV)) as Hl.
    eexists. split; [apply D_ret; cbn [dyn_step]; rewrite Hl; reflexivity|].
    unfold lset, lemit, lset_trace. cbn [l_objs l_trace].
    apply drel_set; [exact HRel|exact I|]. rewrite Ht. now rewrite (proj2 HRel).
Qed.

Lemma step_downcast k t' st leak :
  dinv G st leak -> dstep_post G (ODowncast k t') st leak (run_dstep P G (ODowncast k t') st).
Proof using HG HL.
  intros HI. cbn [run_dstep]. destruct (dget st k) as [[b|v]|] eqn:Hg; [no_val HI k| |no_val HI k].
  destruct (dinv_out G st leak k _ HI Hg) as (rb & rv & HO & Hc & Hback).
  destruct (val_cases G st leak k v HI Hg) as (t & x & HV).
  rewrite (obj_ok_vals G HG _ _ (OK_rel G _ _ (OR_val G v t x HV))) in Hc. cbn [lobj_vals] in Hc.
  rewrite obj_blocks_own in HO.
  assert (Hfin : forall w' leak', Owns w' (leak' ++ rb ++ leak) -> w_trace w' = w_trace (d_world st) ->
     (t = t' -> leak' = []) ->
     dstep_post G (ODowncast k t') st leak
       (Ret (DObs (AVal (if t =? t' then Some x else None))), dset st k None w')).
  { intros w' leak' HO' Ht Hlk. destruct (Hback None w' leak' I HO') as [HI' Hc']. cbn [slot_vals] in Hc'.
    assert (Hlst : forall lst, drel G st lst ->
      exists lst', dacts G lst (ODowncast k t') (Some (DObs (AVal (if t =? t' then Some x else None)))) lst' /\
                   drel G (dset st k None w') lst').
    { intros lst HRel. pose proof (drel_get_as G st lst k _ _ HRel Hg (OR_val G v t x HV)) as Hl.
      eexists. split.
      { apply D_ret. cbn [dyn_step]. rewrite Hl. unfold typed. rewrite (N.eqb_sym t' t). reflexivity. }
      unfold lset.
      apply drel_set; [exact HRel|exact I|]. rewrite Ht. apply HRel. }
    destruct (N.eqb_spec t t') as [<-|Hne].
    - rewrite (Hlk eq_refl) in *. apply (DS_ret G _ st leak (AVal (Some x)) _ [] []); auto.
      intros q. rewrite Hc, Hc'. cbn [dset d_world step_gives step_takes]. rewrite Ht. cnts q. lia.
    - apply (DS_ret G _ st leak (AVal None) _ leak' (owned_vals G t [x])); auto; [|discriminate].
      intros q. rewrite Hc, Hc'. cbn [dset d_world step_gives step_takes]. rewrite Ht. cnts q. lia. }
  destruct (vl_store v) as [bo|] eqn:Ebo.
  - destruct (bv_downcast_rep G v t x bo t' (d_world st) _ HV Ebo HO) as (w1 & -> & HO1 & Ht1).
    destruct (N.eqb_spec t t') as [<-|Hne].
    + cbn [tb_blk tb_val].
      destruct (dealloc_owns bo (t_size (G t)) (t_align (G t)) w1 (rb ++ leak)) as (w2 & -> & HO2 & Ht2);
        [|exact HO1|].
      { pose proof (vp_store _ _ _ _ HV) as Hp. rewrite Ebo in Hp. exact Hp. }
      cbn [obind oreport]. apply (Hfin w2 []); auto. congruence.
    + apply (Hfin w1 (owned bo (t_size (G t)) (t_align (G t)))); auto. congruence.
  - destruct (sv_downcast_rep G v t x t' (d_world st) _ HV Ebo HO) as (w1 & -> & HO1 & Ht1).
    cbn [obind oreport]. now apply (Hfin w1 []).
Qed.

Lemma step_swap_vals k k' st leak :
  dinv G st leak -> dstep_post G (OSwapVals k k') st leak (run_dstep P G (OSwapVals k k') st).
Proof using HG HL.
  intros HI. cbn [run_dstep]. destruct (dget st k) as [[b|v]|] eqn:Hg; [no_val HI k| |no_val HI k].
  destruct (dget st k') as [[b'|v']|] eqn:Hg'; [no_val HI k'| |no_val HI k'].
  destruct (Nat.eqb_spec k k') as [Ek|Hne].
  { apply DS_invalid. intros lst HRel.
    destruct (vec_same st leak k k' Ek _ Hg HI lst HRel) as (a & Ha & Ha' & Hr). cbn [dyn_step].
    rewrite Ha, Ha'. inversion Hr; subst; try rewrite Nat.eqb_refl; reflexivity. }
  destruct (dinv_out2 G st leak k k' _ _ HI Hg Hg' Hne) as (rb & rv & HO & Hc & Hback).
  destruct (val_cases G st leak k v HI Hg) as (t & x & HV).
  destruct (val_cases G st leak k' v' HI Hg') as (t' & x' & HV').
  rewrite (obj_ok_vals G HG _ _ (OK_rel G _ _ (OR_val G v t x HV))) in Hc.
  rewrite (obj_ok_vals G HG _ _ (OK_rel G _ _ (OR_val G v' t' x' HV'))) in Hc. cbn [lobj_vals] in Hc.
  rewrite !obj_blocks_own in HO.
  destruct (vm_swap_ok G _ t x _ t' x' (mut_value G v t x HV) (mut_value G v' t' x' HV'))
    as (m1 & m2 & -> & -> & ->). cbn [obind oreport].
  set (y := if t =? t' then x' else x). set (y' := if t =? t' then x else x').
  assert (Hy : is_value G t y /\ is_value G t' y').
  { unfold y, y'. pose proof (vp_val _ _ _ _ HV). pose proof (vp_val _ _ _ _ HV').
    destruct (N.eqb_spec t t') as [<-|]; auto. }
  replace (if t =? t' then enc G t x' else enc G t x) with (enc G t y) by (unfold y; now destruct (t =? t')).
  replace (if t =? t' then enc G t' x else enc G t' x') with (enc G t' y') by (unfold y'; now destruct (t =? t')).
  pose proof (vl_with_bytes_rep G v t x y HV (proj1 Hy)) as HV1.
  pose proof (vl_with_bytes_rep G v' t' x' y' HV' (proj2 Hy)) as HV1'.
  edestruct (Hback (Some (OVal (vl_with_bytes v (enc G t y)))) (Some (OVal (vl_with_bytes v' (enc G t' y'))))
               (d_world st) []) as [HI' Hc'].
  { eexists. apply (OK_rel G _ _ (OR_val G _ t y HV1)). }
  { eexists. apply (OK_rel G _ _ (OR_val G _ t' y' HV1')). }
  { cbn [slot_blocks]. rewrite !obj_blocks_own, (vl_with_bytes_own G v t x y HV), (vl_with_bytes_own G v' t' x' y' HV').
    exact HO. }
  cbn [slot_vals] in Hc'.
  rewrite (obj_ok_vals G HG _ _ (OK_rel G _ _ (OR_val G _ t y HV1))) in Hc'.
  rewrite (obj_ok_vals G HG _ _ (OK_rel G _ _ (OR_val G _ t' y' HV1'))) in Hc'. cbn [lobj_vals] in Hc'.
  apply (DS_ret G _ st leak AUnit _ [] []); [exact HI'| |now split|].
  - intros q. rewrite Hc, Hc'. cbn [dset d_world step_gives step_takes]. unfold y, y'.
    destruct (N.eqb_spec t t') as [<-|]; cnts q; lia.
  - intros lst HRel. pose proof (drel_get_as G st lst k _ _ HRel Hg (OR_val G v t x HV)) as Hl.
    pose proof (drel_get_as G st lst k' _ _ HRel Hg' (OR_val G v' t' x' HV')) as Hl'.
    exists (LState (list_set (list_set (l_objs lst) k (Some (LVal (is_small v) t y))) k'
                     (Some (LVal (is_small v') t' y'))) (l_trace lst)).
    split.
    + apply D_ret. cbn [dyn_step]. rewrite Hl, Hl', (proj2 (Nat.eqb_neq k k') Hne). unfold y, y'.
      destruct (t =? t'); [reflexivity|]. unfold obs_. do 2 f_equal.
      rewrite <- (lset_same _ _ _ Hl'), <- (lset_same _ _ _ Hl) at 1. reflexivity.
    + apply drel_set2; [exact HRel| | |apply HRel].
      * apply (OR_val G _ t y HV1).
      * apply (OR_val G _ t' y' HV1').
Qed.

Lemma step_assign_val k k' st leak :
  dinv G st leak -> dstep_post G (OAssign k k') st leak (run_dstep P G (OAssign k k') st).
Proof using HG HQ HL.
  intros HI. cbn [run_dstep]. destruct (dget st k) as [[b|v]|] eqn:Hg; [no_val HI k| |no_val HI k].
  destruct (dget st k') as [[b'|v']|] eqn:Hg'; [no_val HI k'| |no_val HI k'].
  destruct (Nat.eqb_spec k k') as [Ek|Hne].
  { apply DS_invalid. intros lst HRel.
    destruct (vec_same st leak k k' Ek _ Hg HI lst HRel) as (a & Ha & Ha' & Hr). cbn [dyn_step].
    rewrite Ha, Ha'. inversion Hr; subst; try rewrite Nat.eqb_refl; reflexivity. }
  destruct (dinv_out2 G st leak k k' _ _ HI Hg Hg' Hne) as (rb & rv & HO & Hc & Hback).
  destruct (val_cases G st leak k v HI Hg) as (t & x & HV).
  destruct (val_cases G st leak k' v' HI Hg') as (t' & x' & HV').
  rewrite (obj_ok_vals G HG _ _ (OK_rel G _ _ (OR_val G v t x HV))) in Hc.
  rewrite (obj_ok_vals G HG _ _ (OK_rel G _ _ (OR_val G v' t' x' HV'))) in Hc. cbn [lobj_vals] in Hc.
  rewrite !obj_blocks_own in HO.
  destruct (vm_assign_ok G HG HQ _ t x v' t' x' (d_world st) (vl_own v ++ rb ++ leak)
              (mut_value G v t x HV) HV')
    as (m1 & w' & -> & -> & HO' & Ht).
  { eapply Owns_perm; [|exact HO]. apply Permutation_app_swap_app. }
  cbn [obind oreport].
  set (y := if t =? t' then x' else x).
  assert (Hy : is_value G t y).
  { unfold y. pose proof (vp_val _ _ _ _ HV). pose proof (vp_val _ _ _ _ HV').
    destruct (N.eqb_spec t t') as [<-|]; auto. }
  replace (if t =? t' then enc G t x' else enc G t x) with (enc G t y) by (unfold y; now destruct (t =? t')).
  pose proof (vl_with_bytes_rep G v t x y HV Hy) as HV1.
  edestruct (Hback (Some (OVal (vl_with_bytes v (enc G t y)))) None w' []) as [HI' Hc'].
  { eexists. apply (OK_rel G _ _ (OR_val G _ t y HV1)). }
  { exact I. }
  { cbn [slot_blocks]. rewrite !obj_blocks_own, (vl_with_bytes_own G v t x y HV). exact HO'. }
  cbn [slot_vals] in Hc'.
  rewrite (obj_ok_vals G HG _ _ (OK_rel G _ _ (OR_val G _ t y HV1))) in Hc'. cbn [lobj_vals] in Hc'.
  apply (DS_ret G _ st leak AUnit _ [] []); [exact HI'| |now split|].
  - intros q. rewrite Hc, Hc'. cbn [dset d_world step_gives step_takes]. rewrite Ht. unfold y.
    destruct (N.eqb_spec t t') as [<-|]; cnts q; lia.
  - intros lst HRel. pose proof (drel_get_as G st lst k _ _ HRel Hg (OR_val G v t x HV)) as Hl.
    pose proof (drel_get_as G st lst k' _ _ HRel Hg' (OR_val G v' t' x' HV')) as Hl'.
    exists (LState (list_set (list_set (l_objs lst) k (Some (LVal (is_small v) t y))) k' None) (w_trace w')).
    split.
    + apply D_ret. cbn [dyn_step]. rewrite Hl, Hl', (proj2 (Nat.eqb_neq k k') Hne), Ht, (proj2 HRel). unfold y.
      destruct (t =? t'); [reflexivity|]. unfold obs_. do 2 f_equal.
      unfold lset, lemit, lset_trace. cbn [l_objs l_trace]. f_equal. f_equal.
      now rewrite (lget_set_same _ _ _ Hl).
    + apply drel_set2; [exact HRel| |exact I|reflexivity].
      apply (OR_val G _ t y HV1).
Qed.

Lemma step_clone_from_val k src st leak :
  dinv G st leak -> source_typed G src -> source_in_range P st src ->
  dstep_post G (OCloneFrom k src) st leak (run_dstep P G (OCloneFrom k src) st).
Proof using HG HC HQ HL.
  intros HI Hty Hin. cbn [run_dstep]. destruct (uses k src) eqn:Hu.
  { apply DS_invalid. intros lst _. cbn [dyn_step]. now rewrite Hu. }
  assert (Hno : (forall v, dget st k <> Some (OVal v)) -> dstep_post G (OCloneFrom k src) st leak (dinvalid st)).
  { intros Hno. apply (not_a_val st leak _ k HI Hno). intros lst Hl. cbn [dyn_step]. rewrite Hu.
    destruct (lget lst k) as [[? ?|? ? ?|]|]; try reflexivity. exfalso. now eapply Hl. }
  destruct (dget st k) as [[b|v]|] eqn:Hg; [apply Hno; congruence| |apply Hno; congruence].
  clear Hno. destruct (dinv_out G st leak k _ HI Hg) as (rb & rv & HO & Hc & Hback).
  destruct (val_cases G st leak k v HI Hg) as (t & x & HV).
  rewrite (obj_ok_vals G HG _ _ (OK_rel G _ _ (OR_val G v t x HV))) in Hc. cbn [lobj_vals] in Hc.
  pose proof (fun lst HRel => drel_get_as G st lst k _ _ HRel Hg (OR_val G v t x HV)) as Hlk.
  (* the value object afterwards *)
  assert (Hback' : forall y w', is_value G t y -> Owns w' (vl_own v ++ rb ++ leak) ->
     dinv G (dset st k (Some (OVal (vl_with_bytes v (enc G t y)))) w') leak /\
     (forall q, cnt q (stored G (dset st k (Some (OVal (vl_with_bytes v (enc G t y)))) w')) =
                (cnt q (owned_vals G t [y]) + cnt q rv)%nat)).
  { intros y w' Hy HO'. pose proof (vl_with_bytes_rep G v t x y HV Hy) as HV1.
    edestruct (Hback (Some (OVal (vl_with_bytes v (enc G t y)))) w' []) as [HI' Hc'].
    { eexists. apply (OK_rel G _ _ (OR_val G _ t y HV1)). }
    { cbn [slot_blocks]. rewrite !obj_blocks_own, (vl_with_bytes_own G v t x y HV). exact HO'. }
    split; [exact HI'|]. intros q. rewrite Hc'. cbn [slot_vals].
    now rewrite (obj_ok_vals G HG _ _ (OK_rel G _ _ (OR_val G _ t y HV1))). }
  assert (Hkeep : forall lst, drel G st lst ->
            drel G (dset st k (Some (OVal (vl_with_bytes v (enc G t x)))) (d_world st)) lst).
  { intros lst HRel. rewrite <- (lset_same _ _ _ (Hlk lst HRel)).
    apply drel_set; [exact HRel| |apply HRel].
    apply (OR_val G _ t x (vl_with_bytes_rep G v t x x HV (vp_val _ _ _ _ HV))). }
  rewrite obj_blocks_own in HO.
  destruct (get_source_ok P G HG st leak src HI Hty Hin) as [Hl|p Hl|p h0 Hin0 Hlost|r t' y Hr Hl|r h0 Hr Hin0 Hlost].
  - apply DS_invalid. intros lst HRel. cbn [dyn_step]. now rewrite Hu, (Hlk lst HRel), (Hl lst HRel).
  - cbn [retype]. apply panic_same; auto. intros lst HRel. apply D_panic. cbn [step_leaves].
    now rewrite (Hlk lst HRel), (Hl lst HRel).
  - cbn [retype]. apply panic_same; auto. intros lst HRel.
    apply (lost_same G lst _ _ h0); [now right|now apply Hlost|now split].
  - pose proof (vm_clone_from_ok G HQ _ t x r t' y (d_world st) (mut_value G v t x HV) Hr) as H.
    destruct (N.eqb_spec t t') as [<-|Hne].
    + destruct (t_clone (G t) (w_trace (d_world st)) y) as [c|] eqn:Ec.
      * destruct H as (m' & -> & ->). cbn [obind oreport].
        pose proof (HC _ _ _ _ Ec) as Hy.
        destruct (Hback' c (set_tr (w_trace (d_world st) ++ [EvClone t y c] ++ drops G t [x]) (d_world st)) Hy)
          as [HI' Hc']; [apply Owns_set_tr; exact HO|].
        apply (DS_ret G _ st leak (ABool true) _ [] []); [exact HI'| |now split|].
        -- intros q. rewrite Hc, Hc'. cbn [dset d_world step_gives step_takes]. rewrite set_tr_trace. cnts q. lia.
        -- intros lst HRel. eexists. split.
           { apply D_ret. cbn [dyn_step]. rewrite Hu, (Hlk lst HRel), (Hl lst HRel), N.eqb_refl.
             rewrite <- (proj2 HRel), Ec. reflexivity. }
           unfold lset, lemit, lset_trace. cbn [l_objs l_trace].
           apply drel_set; [exact HRel| |now rewrite <- (proj2 HRel)].
           apply (OR_val G _ t c (vl_with_bytes_rep G v t x c HV Hy)).
      * rewrite H. cbn [obind oreport]. change (vm_bytes (vl_as_mut v)) with (vl_bytes v).
        rewrite (vp_bytes _ _ _ _ HV).
        destruct (Hback' x (d_world st) (vp_val _ _ _ _ HV) HO) as [HI' Hc'].
        apply (DS_panic G _ st leak PUser _ [] []); [exact HI'| |].
        -- intros q. rewrite Hc, Hc'. cbn [dset d_world step_gives]. cnts q. lia.
        -- intros lst HRel. exists lst. split.
           { apply D_panic. cbn [step_leaves]. rewrite (Hlk lst HRel), (Hl lst HRel), <- (proj2 HRel). auto. }
           now apply Hkeep.
    + destruct H as [e ->]. cbn [obind oreport]. change (vm_bytes (vl_as_mut v)) with (vl_bytes v).
      rewrite (vp_bytes _ _ _ _ HV).
      destruct (Hback' x (d_world st) (vp_val _ _ _ _ HV) HO) as [HI' Hc'].
      apply (DS_ret G _ st leak (ABool false) _ [] []); [exact HI'| |now split|].
      * intros q. rewrite Hc, Hc'. cbn [dset d_world step_gives step_takes]. cnts q. lia.
      * intros lst HRel. exists lst. split; [|now apply Hkeep].
        apply D_ret. cbn [dyn_step]. rewrite Hu, (Hlk lst HRel), (Hl lst HRel).
        rewrite (proj2 (N.eqb_neq t t') Hne). reflexivity.
  - destruct (vm_clone_from_pois_ref G HG HQ _ t x r (d_world st) (mut_value G v t x HV) Hr)
      as (o & m' & w' & -> & Hsafe & -> & HO' & Hb & Hx).
    change (vm_bytes (vl_as_mut v)) with (vl_bytes v). rewrite (vp_bytes _ _ _ _ HV).
    destruct (Hback' x w' (vp_val _ _ _ _ HV) (HO' _ HO)) as [HI' Hc'].
    assert (Hlst : forall r lst, drel G st lst -> exists lst', dacts G lst (OCloneFrom k src) r lst' /\
              drel G (dset st k (Some (OVal (vl_with_bytes v (enc G t x)))) w') lst').
    { intros r0 lst HRel.
      exists (LState (list_set (l_objs lst) k (Some (LVal (is_small v) t x))) (w_trace w')). split.
      - apply D_lost; [exists h0; split; [now right|now apply Hlost]| |].
        + cbn [l_objs consume]. now apply lget_set_same, Hlk.
        + cbn [l_trace handed]. rewrite <- (proj2 HRel). exact Hx.
      - apply drel_set; [exact HRel| |reflexivity].
        apply (OR_val G _ t x (vl_with_bytes_rep G v t x x HV (vp_val _ _ _ _ HV))). }
    destruct o as [a|p|u|]; try contradiction; cbn [obind oreport].
    + apply (DS_ret G _ st leak _ _ [] []); [exact HI'| |now split|].
      * intros q. specialize (Hb q). rewrite Hc, Hc'. cbn [dset d_world step_gives step_takes].
        revert Hb. cnts q. lia.
      * apply Hlst.
    + apply (DS_panic G _ st leak p _ [] []); [exact HI'| |apply Hlst].
      intros q. specialize (Hb q). rewrite Hc, Hc'. cbn [dset d_world step_gives]. revert Hb. cnts q. lia.
Qed.

Lemma step_eq_val k k' st leak :
  dinv G st leak -> dstep_post G (OEq k k') st leak (run_dstep P G (OEq k k') st).
Proof using HG HL.
  intros HI. cbn [run_dstep]. destruct (dget st k) as [[b|v]|] eqn:Hg; [no_val HI k| |no_val HI k].
  destruct (dget st k') as [[b'|v']|] eqn:Hg'; [no_val HI k'| |no_val HI k'].
  destruct (val_cases G st leak k v HI Hg) as (t & x & HV).
  destruct (val_cases G st leak k' v' HI Hg') as (t' & x' & HV').
  pose proof (fun lst HRel => drel_get_as G st lst k _ _ HRel Hg (OR_val G v t x HV)) as Hlk.
  pose proof (fun lst HRel => drel_get_as G st lst k' _ _ HRel Hg' (OR_val G v' t' x' HV')) as Hlk'.
  rewrite (vl_eq_rep G v t x v' t' x' HV HV').
  destruct (vl_store v) as [bo|] eqn:Ebo; destruct (vl_store v') as [bo'|] eqn:Ebo'; cbn [obind oreport].
  2,3: apply DS_invalid; intros lst HRel; cbn [dyn_step]; rewrite (Hlk lst HRel), (Hlk' lst HRel);
    unfold is_small; rewrite Ebo, Ebo'; reflexivity.
  all: apply ret_same; auto; intros lst HRel; apply D_ret; cbn [dyn_step]; rewrite (Hlk lst HRel), (Hlk' lst HRel);
    unfold is_small; rewrite Ebo, Ebo'; reflexivity.
Qed.

Lemma step_hash_val k st leak :
  dinv G st leak -> dstep_post G (OHashVal k) st leak (run_dstep P G (OHashVal k) st).
Proof using HG HL.
  intros HI. cbn [run_dstep]. destruct (dget st k) as [[b|v]|] eqn:Hg; [no_val HI k| |no_val HI k].
  destruct (val_cases G st leak k v HI Hg) as (t & x & HV).
  rewrite (vl_hash_rep G v t x HV). cbn [obind oreport]. apply ret_same; auto.
  intros lst HRel. apply D_ret. cbn [dyn_step]. now rewrite (drel_get_as G st lst k _ _ HRel Hg (OR_val G v t x HV)).
Qed.

Lemma step_fmt_val k st leak :
  dinv G st leak -> dstep_post G (OFmtVal k) st leak (run_dstep P G (OFmtVal k) st).
Proof using HG HL.
  intros HI. cbn [run_dstep]. destruct (dget st k) as [[b|v]|] eqn:Hg; [no_val HI k| |no_val HI k].
  destruct (val_cases G st leak k v HI Hg) as (t & x & HV).
  rewrite (vl_fmt_rep G v t x HV). cbn [obind oreport]. apply ret_same; auto.
  intros lst HRel. apply D_ret. cbn [dyn_step]. now rewrite (drel_get_as G st lst k _ _ HRel Hg (OR_val G v t x HV)).
Qed.

(** ** All steps *)

Theorem run_dstep_post s st leak :
  dinv G st leak -> dstep_typed G s -> dstep_in_range P s st ->
  dstep_post G s st leak (run_dstep P G s st).
Proof using HG HC HQ HL.
  intros HI Hty Hin.
  destruct s; cbn [dstep_typed dstep_in_range] in Hty, Hin.
  - now apply step_from_vec.
  - now apply step_with_type.
  - now apply step_with_capacity.
  - now apply step_with_size.
  - now apply step_from_slice.
  - now apply step_with_type_from.
  - now apply step_with_type_from_ref.
  - now apply step_clone.
  - now apply step_drop.
  - now apply step_into_vec.
  - now apply step_append.
  - now apply step_swap_elems.
  - now apply step_eq.
  - now apply step_push.
  - now apply step_push_cloned.
  - now apply step_assign.
  - now apply step_clone_from.
  - now apply step_clone_from_all.
  - now apply step_call.
  - now apply step_box.
  - now apply step_small.
  - now apply step_clone_box.
  - now apply step_clone_small.
  - now apply step_clone_val.
  - now apply step_drop_val.
  - now apply step_downcast.
  - now apply step_swap_vals.
  - now apply step_assign_val.
  - now apply step_clone_from_val.
  - now apply step_eq_val.
  - now apply step_hash_val.
  - now apply step_fmt_val.
Qed.

End DynSteps.
