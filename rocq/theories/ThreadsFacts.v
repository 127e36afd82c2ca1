(** * ThreadsFacts: proofs about threads. *)

From Verif Require Import Base Value Derive DeriveSem DeriveSpec DeriveMap DeriveProofs DeriveItems DeriveFacts.
From Verif Require Import Threads ThreadsSpec.
Local Open Scope string_scope.
Local Open Scope list_scope.

Lemma c59_slices_fact : forall V e h m,
  promised V e -> h = HSlice \/ h = HSliceMut ->
  handle_is V m h = true -> element_is e m.
Proof. intros V e h m P [-> | ->] H; exact (P m H). Qed.

Lemma c59_derived_slices_fact : forall attrs lib its depth it e impl h,
  hierarchy its -> (List.length its + 8 < depth)%nat ->
  crate_named attrs lib -> In it its ->
  implementor its e impl -> impl (TCustom (it_name it)) ->
  h = HSlice \/ h = HSliceMut ->
  exists out,
    dync_mod depth attrs its = Ret out /\
    let V := table_named (lib_items lib ++ out) lib (vtable_of "" (it_name it)) in
    (handle_is V MSend h = true -> e_send e) /\ (handle_is V MSync h = true -> e_sync e).
Proof.
  intros attrs lib its depth it e impl h Hh Hd Hs Hit Him Hi Hk.
  assert (N1 : named lib its TSend (lib_mod lib) "Send") by (apply (named_std lib its); cbn; tauto).
  assert (N2 : named lib its TSync (lib_mod lib) "Sync") by (apply (named_std lib its); cbn; tauto).
  destruct (c48_closure_fact attrs lib its depth it TSend _ _ Hh Hd Hs Hit N1) as (out & E & S1).
  destruct (c48_closure_fact attrs lib its depth it TSync _ _ Hh Hd Hs Hit N2) as (out' & E' & S2).
  rewrite E in E'. injection E' as <-. exists out. split; [exact E|]. cbn zeta.
  split; intros H.
  - assert (H1 : implements (lib_items lib ++ out) (lib_q lib "HasSend") (vtable_of "" (it_name it)) = true)
      by (destruct Hk as [-> | ->]; exact H).
    apply S1 in H1 as [H1|[H1|H1]]; [discriminate..|]. apply (im_send _ _ _ Him). eapply im_up; eauto.
  - assert (H1 : implements (lib_items lib ++ out) (lib_q lib "HasSync") (vtable_of "" (it_name it)) = true)
      by (destruct Hk as [-> | ->]; exact H).
    apply S2 in H1 as [H1|[H1|H1]]; [discriminate..|]. apply (im_sync _ _ _ Him). eapply im_up; eauto.
Qed.

Lemma c59_copy_refuted_fact : forall h, h = HSliceCopy \/ h = HSliceCopyMut ->
  exists V e, promised V e /\ ~ e_send e /\ ~ e_sync e /\
    handle_is V MSend h = true /\ handle_is V MSync h = true.
Proof.
  intros h H. exists unit_table, (Element False False). split; [intros [] Hm; discriminate|].
  split; [intros []|]. split; [intros []|]. destruct H as [-> | ->]; split; reflexivity.
Qed.

Lemma c71_shared_refuted_fact : forall h, h = HSlice \/ h = HValueRef \/ h = HCopyValueRef ->
  exists V e, promised V e /\ handle_is V MSend h = true /\ ~ typed_is (hides h) e MSend.
Proof.
  intros h H. exists (TableType true true true false), (Element True False).
  split; [intros [] Hm; [exact Logic.I|discriminate]|].
  destruct H as [-> | [-> | ->]]; (split; [reflexivity|intros []]).
Qed.

Lemma c71_owned_partial_fact : forall V e h m,
  promised V e -> hides h <> TyRef \/ m = MSync -> h <> HSliceCopyMut -> h <> HSliceCopy ->
  handle_is V m h = true -> typed_is (hides h) e m.
Proof.
  intros V e h m P Hn N1 N2 H.
  destruct h; try contradiction; destruct m; try discriminate H;
    try exact (P MSend H); try exact (P MSync H);
    destruct Hn as [Hn|Hn]; try discriminate Hn; exfalso; apply Hn; reflexivity.
Qed.

Lemma c71_shared_partial_fact : forall V e h m,
  promised V e -> (e_send e -> e_sync e) -> h <> HSliceCopyMut -> h <> HSliceCopy ->
  handle_is V m h = true -> typed_is (hides h) e m.
Proof.
  intros V e h m P Hs N1 N2 H.
  destruct h; try contradiction; destruct m; try discriminate H;
    first [exact (P MSend H)|exact (P MSync H)|exact (Hs (P MSend H))].
Qed.

Lemma implements_app : forall a b h q, implements (a ++ b) h q = implements a h q || implements b h q.
Proof. intros. apply existsb_app. Qed.

Lemma c72_builtin_refuted_fact : forall lib,
  handle_is (table_named (lib_items lib) lib (lib_q lib "SendVTable")) MSend HVecDyn = false /\
  handle_is (table_named (lib_items lib) lib (lib_q lib "SyncVTable")) MSync HVecDyn = false.
Proof.
  intros lib. split; cbv -[lib_mod String.eqb String.append];
    rewrite ?String.eqb_refl; reflexivity.
Qed.

Lemma c72_derived_fact : forall attrs lib its depth it,
  hierarchy its -> (List.length its + 8 < depth)%nat ->
  crate_named attrs lib -> In it its ->
  exists out,
    dync_mod depth attrs its = Ret out /\
    let V := table_named (lib_items lib ++ out) lib (vtable_of "" (it_name it)) in
    forall h, h <> HVecVoid -> h <> HVecCopy ->
      (inherits its (TCustom (it_name it)) TSend -> handle_is V MSend h = true) /\
      (inherits its (TCustom (it_name it)) TSync -> handle_is V MSync h = true).
Proof.
  intros attrs lib its depth it Hh Hd Hs Hit.
  assert (N1 : named lib its TSend (lib_mod lib) "Send") by (apply (named_std lib its); cbn; tauto).
  assert (N2 : named lib its TSync (lib_mod lib) "Sync") by (apply (named_std lib its); cbn; tauto).
  destruct (c48_closure_fact attrs lib its depth it TSend _ _ Hh Hd Hs Hit N1) as (out & E & S1).
  destruct (c48_closure_fact attrs lib its depth it TSync _ _ Hh Hd Hs Hit N2) as (out' & E' & S2).
  rewrite E in E'. injection E' as <-. exists out. split; [exact E|]. cbn zeta.
  intros h Hv Hc. split; intros Hi.
  - assert (H1 : implements (lib_items lib ++ out) (lib_q lib "HasSend") (vtable_of "" (it_name it)) = true)
      by (apply S1; auto).
    destruct h; try contradiction; first [exact H1|reflexivity].
  - assert (H1 : implements (lib_items lib ++ out) (lib_q lib "HasSync") (vtable_of "" (it_name it)) = true)
      by (apply S2; auto).
    destruct h; try contradiction; first [exact H1|reflexivity].
Qed.

Lemma c72_vec_copy_refuted_fact : forall V m, handle_is V m HVecCopy = false.
Proof. intros V []; reflexivity. Qed.
