(** * ReachProofs: what holds in every reachable state. *)

From Verif Require Export Reach MachineProofs.

Section ReachProofs.
Context {V : Type} (P : profile) (G : tenv) (HG : wf_tenv G) (build : tyid -> V).

Lemma run_inv prog st leak :
  inv G st leak -> Forall (step_typed G) prog -> in_range P G build prog st ->
  exists leak',
    inv G (snd (run P G build prog st)) (leak' ++ leak) /\
    Forall safe (fst (run P G build prog st)) /\
    List.length (fst (run P G build prog st)) = List.length prog /\
    (forall rs, fst (run P G build prog st) = map Ret rs ->
       leak' = [] /\
       forall lst, rel G st lst ->
         exists lst', list_run G prog lst = Some (rs, lst') /\
                      rel G (snd (run P G build prog st)) lst').
Proof.
  revert st leak. induction prog as [|s prog IH]; intros st leak HI Hty Hin.
  - exists []. cbn. csplit; [exact HI|constructor|reflexivity|].
    intros [|r rs] E; [|discriminate]. split; [reflexivity|]. intros lst HR. eauto.
  - inversion Hty as [|s' prog' Hs Hprog]; subst. destruct Hin as [Hr Hin].
    pose proof (run_step_post P G HG build s st leak HI Hs Hr) as HP. cbn [run].
    destruct (run_step P G build s st) as [o st1] eqn:E. cbn [snd] in Hin.
    inversion HP as [r st' HI' HL Heq|p st' lk HI' Heq]; subst o st'.
    + destruct (IH st1 leak HI' Hprog Hin) as (leak' & HI2 & HS & HLn & HRet).
      destruct (run P G build prog st1) as [rs st2] eqn:E2. cbn [fst snd] in *.
      exists leak'. csplit; [exact HI2|constructor; [exact I|exact HS]|cbn; now rewrite HLn|].
      intros [|r0 rs0] Eq; cbn [map] in Eq; [discriminate|]. injection Eq as <- Eq.
      destruct (HRet rs0 Eq) as [-> HF]. split; [reflexivity|].
      intros lst HR. destruct (HL lst HR) as (lst1 & HLs & HR1).
      destruct (HF lst1 HR1) as (lst2 & HLr & HR2). exists lst2. split; [|exact HR2].
      cbn [list_run]. now rewrite HLs, HLr.
    + destruct (IH st1 (lk ++ leak) HI' Hprog Hin) as (leak' & HI2 & HS & HLn & _).
      destruct (run P G build prog st1) as [rs st2] eqn:E2. cbn [fst snd] in *.
      exists (leak' ++ lk). rewrite <- app_assoc.
      csplit; [exact HI2|constructor; [exact I|exact HS]|cbn; now rewrite HLn|].
      intros [|r0 rs0] Eq; cbn [map] in Eq; discriminate.
Qed.

Lemma inv_init : inv G (c_init (V := V)) [].
Proof. split; [constructor|]. apply Owns_w0. Qed.

Lemma reachable_inv st : reachable P G build st -> exists leak, inv G st leak.
Proof.
  intros (prog & Hty & Hin & ->).
  destruct (run_inv prog c_init [] inv_init Hty Hin) as (leak & HI & _). rewrite app_nil_r in HI. eauto.
Qed.

Lemma run_app prog1 prog2 st :
  Forall safe (fst (run P G build prog1 st)) ->
  run P G build (prog1 ++ prog2) st =
  let '(rs1, st1) := run P G build prog1 st in
  let '(rs2, st2) := run P G build prog2 st1 in (rs1 ++ rs2, st2).
Proof.
  revert st. induction prog1 as [|s prog1 IH]; intros st HS; cbn [app run].
  - destruct (run P G build prog2 st). reflexivity.
  - cbn [run] in HS. destruct (run_step P G build s st) as [[r|p|u|] st1].
    + rewrite IH; destruct (run P G build prog1 st1) as [rs1 st2]; [|inversion HS; assumption].
      now destruct (run P G build prog2 st2).
    + rewrite IH; destruct (run P G build prog1 st1) as [rs1 st2]; [|inversion HS; assumption].
      now destruct (run P G build prog2 st2).
    + now inversion HS.
    + now inversion HS.
Qed.

Lemma in_range_app prog1 prog2 st :
  Forall safe (fst (run P G build prog1 st)) -> in_range P G build prog1 st ->
  in_range P G build prog2 (snd (run P G build prog1 st)) -> in_range P G build (prog1 ++ prog2) st.
Proof.
  revert st. induction prog1 as [|s prog1 IH]; intros st HS H1 H2; [exact H2|].
  destruct H1 as [Hs H1]. cbn [app in_range]. split; [exact Hs|].
  cbn [run] in HS, H2. destruct (run_step P G build s st) as [[r|p|u|] st1]; cbn [snd] in *.
  - destruct (run P G build prog1 st1) as [rs1 st2] eqn:E; cbn [fst snd] in *.
    apply IH; try assumption; rewrite E; [now inversion HS|exact H2].
  - destruct (run P G build prog1 st1) as [rs1 st2] eqn:E; cbn [fst snd] in *.
    apply IH; try assumption; rewrite E; [now inversion HS|exact H2].
  - now inversion HS.
  - now inversion HS.
Qed.

(** Reachable states are closed under further programs. *)
Lemma reachable_run st prog :
  reachable P G build st -> Forall (step_typed G) prog -> in_range P G build prog st ->
  reachable P G build (snd (run P G build prog st)).
Proof.
  intros (p0 & Hty0 & Hin0 & ->) Hty Hin.
  destruct (run_inv p0 c_init [] inv_init Hty0 Hin0) as (leak & _ & HS & _).
  exists (p0 ++ prog). csplit.
  - apply Forall_app. auto.
  - now apply in_range_app.
  - rewrite (run_app p0 prog c_init HS).
    destruct (run P G build p0 c_init) as [rs1 st1]. cbn [snd].
    now destruct (run P G build prog st1).
Qed.

(** ** Buffers *)

Lemma rep_shows (b : veccopy V) t xs : Rep G t (vc_data b) xs -> shows G b t xs.
Proof.
  intros HR. split; [apply HR|]. rewrite (veccopy_eta b), (as_slice_as_rep G _ _ _ _ _ HR).
  unfold typed. now rewrite N.eqb_refl.
Qed.

Lemma poisoned_gone (b : veccopy V) : Poisoned (vc_data b) -> gone G b.
Proof.
  intros HP. unfold gone, vc_as_slice_as, vc_check, vc_element_type_id. rewrite (po_elem _ HP).
  cbn [e_type_id]. split; [reflexivity|]. intros t Ht. destruct (t =? unit_id) eqn:E; [|reflexivity].
  apply N.eqb_eq in E. subst t. now elim Ht; apply HG.
Qed.

Lemma shows_rep (b : veccopy V) t xs :
  slot_ok G (Some b) -> shows G b t xs -> Rep G t (vc_data b) xs /\ t_copy (G t) = true.
Proof.
  intros Hs [Hz Hr]. destruct Hs as [(t' & xs' & HR & Hc)|HP].
  - rewrite (veccopy_eta b), (as_slice_as_rep G _ _ _ _ _ HR) in Hr. injection Hr as Hr.
    unfold typed in Hr. destruct (t =? t') eqn:E; [|discriminate]. injection Hr as <-.
    apply N.eqb_eq in E as ->. auto.
  - destruct (poisoned_gone b HP) as [_ Hg]. rewrite (Hg t Hz) in Hr. discriminate.
Qed.

Lemma live_rep b w t xs :
  live_buffer P G build b w -> shows G b t xs ->
  Rep G t (vc_data b) xs /\ t_copy (G t) = true /\ exists l, Owns w (vv_own (vc_data b) ++ l).
Proof.
  intros (st & h & HR & Hg & ->) Hsh. destruct (reachable_inv st HR) as [leak HI].
  destruct (inv_out0 G st leak h b HI Hg) as (rest & HO & _).
  destruct (shows_rep b t xs) as [H1 H2]; [|exact Hsh|].
  - exact (slot_ok_get G st leak h b HI Hg).
  - eauto.
Qed.

Lemma live_cases_fact b w :
  live_buffer P G build b w -> (exists t xs, shows G b t xs) \/ gone G b.
Proof.
  intros (st & h & HR & Hg & ->). destruct (reachable_inv st HR) as [leak HI].
  destruct (slot_ok_get G st leak h b HI Hg) as [(t & xs & HRep & Hc)|HP].
  - left. exists t, xs. now apply rep_shows.
  - right. now apply poisoned_gone.
Qed.

Lemma live_pair_rep b b' w t xs t' xs' :
  live_pair P G build b b' w -> shows G b t xs -> shows G b' t' xs' ->
  Rep G t (vc_data b) xs /\ Rep G t' (vc_data b') xs' /\
  t_copy (G t) = true /\ t_copy (G t') = true /\
  exists l, Owns w (vv_own (vc_data b) ++ vv_own (vc_data b') ++ l).
Proof.
  intros (st & h & h' & HR & Hne & Hg & Hg' & ->) Hsh Hsh'. destruct (reachable_inv st HR) as [leak HI].
  destruct (shows_rep b t xs) as [H1 H2]; [exact (slot_ok_get G st leak h b HI Hg)|exact Hsh|].
  destruct (shows_rep b' t' xs') as [H1' H2']; [exact (slot_ok_get G st leak h' b' HI Hg')|exact Hsh'|].
  csplit; try assumption. apply get_some in Hg. apply get_some in Hg'.
  destruct (flat_map_set2 slot_blocks (c_store st) h h' _ _ Hg Hg' Hne) as (rest & HP & _).
  exists (rest ++ leak). destruct HI as [_ HO]. eapply Owns_perm; [|exact HO].
  unfold owned_blocks. fold (@slot_blocks V). rewrite HP. cbn [slot_blocks]. now rewrite <- !app_assoc.
Qed.

Lemma live_pair_live b b' w :
  live_pair P G build b b' w -> live_buffer P G build b w /\ live_buffer P G build b' w.
Proof. intros (st & h & h' & HR & Hne & Hg & Hg' & ->). split; exists st; eauto. Qed.

End ReachProofs.
