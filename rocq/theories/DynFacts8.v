(** * DynFacts8: programs with destructors that panic (C30, C85). *)

From Verif Require Export DynLoud.

(** ** C85 Whole programs *)

Lemma c85_accounting_fact :
  forall (V : Type) (T : FullTable V) (P : profile) (G : tenv), wf_tenv G -> clones_ok G ->
  forall prog rs st,
  Forall (dstep_typed G) prog -> dyn_in_range P G prog (d_init (V := V)) ->
  drun P G prog (d_init (V := V)) = (rs, st) ->
  (forall u, ~ In (UB u) rs) /\
  (In Abort rs \/
   List.length rs = List.length prog /\
   exists lost again leak,
     Permutation (given G prog rs ++ cloned G (w_trace (d_world st)) ++ again)
                 (stored G st ++ taken G prog rs ++ dropped G (w_trace (d_world st)) ++ lost) /\
     Permutation (w_live (d_world st)) (obj_blocks_of st ++ leak) /\
     (none_left_dropped prog rs -> again = []) /\
     (forall as_, rs = map Ret as_ -> keeps_all prog as_ -> lost = [] /\ leak = [])).
Proof.
  intros V T P G HG HC prog rs st Hty Hin HE.
  destruct (drun_l P G HG HC prog d_init [] (dinv_init (V := V) G) Hty Hin)
    as [[HA HU]|(leak & lost & again & [_ [_ HO]] & HSf & HLn & HB & HA & HK)]; rewrite HE in *; cbn [fst snd] in *.
  - split; [|now left]. intros u Hu. exact (HU _ Hu).
  - split.
    { intros u Hu. rewrite Forall_forall in HSf. exact (HSf _ Hu). }
    right. split; [exact HLn|]. exists lost, again, leak. csplit; [|now rewrite app_nil_r in HO|exact HA|].
    + apply perm_cnt. intros q. specialize (HB q).
      revert HB. cbn [d_init stored flat_map d_objs d_world w_trace w0]. cnts q.
      cbn [cnt count_occ cloned dropped flat_map]. lia.
    + intros as_ Er Hk. destruct (HK as_ Er Hk) as [-> ->]. now split.
Qed.

(** ** C30 Single calls *)

Lemma running_rep (V : Type) (T : FullTable V) P G (b : vecdyn V) w t xs :
  wf_tenv G -> clones_ok G -> running_vec P G b w -> contents G b t xs ->
  exists d l, b = VecCopy d (build_vtable t) /\ Rep G t d xs /\ Owns w (vv_own d ++ l).
Proof.
  intros HG HC (prog & h & Hty & Hin & HA & Hg & ->) Hc.
  destruct (drun_l P G HG HC prog d_init [] (dinv_init (V := V) G) Hty Hin)
    as [[HA' _]|(leak & lost & again & HI & _)]; [contradiction|].
  destruct (vec_contents G HG _ _ h b t xs HI Hg Hc) as (d & -> & HRep).
  destruct (dinv_out G _ _ h _ HI Hg) as (rb & rv & HO & _).
  cbn [obj_blocks] in HO. rewrite buf_block_own in HO. eauto.
Qed.

Lemma c30_clear_partial_fact :
  forall (V : Type) (T : FullTable V) (P : profile) (G : tenv), wf_tenv G -> clones_ok G ->
  forall (b : vecdyn V) w t xs ds ok,
  running_vec P G b w -> contents G b t xs -> drop_seq G t (w_trace w) xs = (ds, ok) ->
  exists b' w', vd_clear P G b w = (if ok then Ret tt else Panic PUser, b', w') /\
                (if ok then contents G b' t [] else b' = b) /\
                events w (drops G t ds) w' /\ freed w [] w'.
Proof.
  intros V T P G HG HC b w t xs ds ok Hb Hc Hs.
  destruct (running_rep V T P G b w t xs HG HC Hb Hc) as (d & l & -> & HR & HO).
  pose proof (rep_sized _ _ _ _ HR) as Hz.
  unfold vd_clear. cbn [vc_data vc_vtable].
  rewrite (byte_chunks_mut_rep P G HG t d xs HR), law_drop, (drop_chunks_seq G t xs w ds ok Hz Hs).
  destruct ok.
  - unfold on_data. cbn [vc_data vc_vtable].
    destruct (vv_clear_rep P G HG t d xs (set_tr (w_trace w ++ drops G t ds) w) l HR) as (d' & E & HR' & _ & _ & HO').
    { now apply Owns_set_tr. }
    rewrite E. do 2 eexists. csplit; [reflexivity|now apply (rep_contents G HG)|apply set_tr_trace|].
    unfold freed. reflexivity.
  - do 2 eexists. csplit; [reflexivity|reflexivity|apply set_tr_trace|]. unfold freed. reflexivity.
Qed.

Lemma c30_resize_partial_fact :
  forall (V : Type) (T : FullTable V) (P : profile) (G : tenv), wf_tenv G -> clones_ok G ->
  forall (b : vecdyn V) w t xs n x ds ok dx okx,
  running_vec P G b w -> contents G b t xs -> n < lenN xs ->
  drop_seq G t (w_trace w) (skipnN n xs) = (ds, ok) ->
  drop_seq G t (w_trace w ++ drops G t ds) [x] = (dx, okx) ->
  exists b' w', vd_resize P G t n x b w =
                  (match ok, okx with
                   | true, true => Ret true
                   | true, false | false, true => Panic PUser
                   | false, false => Abort
                   end, b', w') /\
                (if ok then contents G b' t (firstnN n xs) else b' = b) /\
                events w (drops G t ds ++ drops G t [x]) w' /\ freed w [] w'.
Proof.
  intros V T P G HG HC b w t xs n x ds ok dx okx Hb Hc Hn Hs Hx.
  destruct (running_rep V T P G b w t xs HG HC Hb Hc) as (d & l & -> & HR & HO).
  pose proof (rep_sized _ _ _ _ HR) as Hz.
  set (w1 := set_tr (w_trace w ++ drops G t ds) w).
  assert (HX : forall (w' : world), w_trace w' = w_trace w ++ drops G t ds ->
            drop_val G t x w' = (if okx then Ret tt else Panic PUser, set_tr (w_trace w' ++ drops G t [x]) w')).
  { intros w' Ht. cbn [drop_seq] in Hx. rewrite <- Ht in Hx. unfold drop_val, drops.
    destruct (t_copy (G t)); cbn [negb andb] in Hx.
    - injection Hx as <- <-. now rewrite app_nil_r, set_tr_same.
    - destruct (t_drop_panics (G t) (w_trace w') x); injection Hx as <- <-; reflexivity. }
  unfold vd_resize. rewrite (vc_check_rep G _ _ _ _ _ HR), N.eqb_refl.
  unfold vd_len, vc_len. cbn [vc_data vc_vtable]. rewrite (rep_len _ _ _ _ HR).
  replace (lenN xs <=? n) with false by (symmetry; apply N.leb_gt; exact Hn).
  rewrite (byte_chunks_mut_rep P G HG t d xs HR), law_drop. unfold skipnN in *. rewrite skipn_map.
  rewrite (drop_chunks_seq G t _ w ds ok Hz Hs). fold w1. destruct ok.
  - unfold on_data. cbn [vc_data vc_vtable].
    destruct (vv_truncate_rep P G HG t d xs n w1 l HR) as (d' & E & HR' & _ & _ & HO').
    { now apply Owns_set_tr. }
    { lia. }
    rewrite E. cbn [obind owning]. rewrite (HX w1) by apply set_tr_trace.
    destruct okx; cbn [obind]; do 2 eexists; (csplit; [reflexivity|now apply (rep_contents G HG)| |unfold freed; reflexivity]);
      unfold events; rewrite set_tr_trace; unfold w1; rewrite set_tr_trace; now rewrite <- app_assoc.
  - cbn [retype owning]. rewrite (HX w1) by apply set_tr_trace.
    destruct okx; cbn [unwind]; do 2 eexists; (csplit; [reflexivity|reflexivity| |unfold freed; reflexivity]);
      unfold events; rewrite set_tr_trace; unfold w1; rewrite set_tr_trace; now rewrite <- app_assoc.
Qed.

Lemma c30_drop_partial_fact :
  forall (V : Type) (T : FullTable V) (P : profile) (G : tenv), wf_tenv G -> clones_ok G ->
  forall (b : vecdyn V) w t xs ds ok,
  running_vec P G b w -> contents G b t xs -> drop_seq G t (w_trace w) xs = (ds, ok) ->
  exists w', vd_drop P G b w = (if ok then Ret tt else Panic PUser, w') /\
             events w (drops G t ds) w' /\ freed w (if ok then buf_block b else []) w'.
Proof.
  intros V T P G HG HC b w t xs ds ok Hb Hc Hs.
  destruct (running_rep V T P G b w t xs HG HC Hb Hc) as (d & l & -> & HR & HO).
  pose proof (rep_sized _ _ _ _ HR) as Hz.
  unfold vd_drop. cbn [vc_data vc_vtable].
  rewrite (byte_chunks_mut_rep P G HG t d xs HR), law_drop, (drop_chunks_seq G t xs w ds ok Hz Hs).
  destruct ok.
  - unfold vc_drop. cbn [vc_data].
    destruct (vv_drop_rep P G HG t d xs (set_tr (w_trace w ++ drops G t ds) w) l HR) as (w' & -> & HO' & Ht).
    { now apply Owns_set_tr. }
    exists w'. csplit; [reflexivity| |].
    + unfold events. now rewrite Ht, set_tr_trace.
    + rewrite buf_block_own. cbn [vc_data]. exact (owns_freed w w' _ l HO HO').
  - eexists. csplit; [reflexivity|apply set_tr_trace|]. unfold freed. reflexivity.
Qed.

(** After a [clear] that panicked, dropping the vector runs the destructors from the first element
    on again. *)
Lemma c30_dropped_again_fact :
  forall (V : Type) (T : FullTable V) (P : profile) (G : tenv), wf_tenv G -> clones_ok G ->
  forall (b : vecdyn V) w t xs ds ds' ok',
  running_vec P G b w -> contents G b t xs -> drop_seq G t (w_trace w) xs = (ds, false) ->
  drop_seq G t (w_trace w ++ drops G t ds) xs = (ds', ok') ->
  exists w1 w2, vd_clear P G b w = (Panic PUser, b, w1) /\
                vd_drop P G b w1 = (if ok' then Ret tt else Panic PUser, w2) /\
                events w (drops G t ds ++ drops G t ds') w2 /\
                exists r r', xs = ds ++ r /\ xs = ds' ++ r'.
Proof.
  intros V T P G HG HC b w t xs ds ds' ok' Hb Hc Hs Hs'.
  destruct (c30_clear_partial_fact V T P G HG HC b w t xs ds false Hb Hc Hs) as (b' & w1 & E1 & -> & Ht1 & _).
  destruct (running_rep V T P G b w t xs HG HC Hb Hc) as (d & l & -> & HR & HO).
  pose proof (rep_sized _ _ _ _ HR) as Hz.
  assert (Ew : w1 = set_tr (w_trace w ++ drops G t ds) w).
  { revert E1. unfold vd_clear. cbn [vc_data vc_vtable].
    rewrite (byte_chunks_mut_rep P G HG t d xs HR), law_drop, (drop_chunks_seq G t xs w ds false Hz Hs).
    intros E. now injection E. }
  rewrite <- Ht1 in Hs'.
  exists w1. unfold vd_drop. cbn [vc_data vc_vtable].
  rewrite (byte_chunks_mut_rep P G HG t d xs HR), law_drop, (drop_chunks_seq G t xs w1 ds' ok' Hz Hs').
  destruct (drop_seq_prefix _ _ _ _ _ _ Hs) as (r & Hr & _). destruct (drop_seq_prefix _ _ _ _ _ _ Hs') as (r' & Hr' & _).
  destruct ok'.
  - unfold vc_drop. cbn [vc_data].
    destruct (vv_drop_rep P G HG t d xs (set_tr (w_trace w1 ++ drops G t ds') w1) l HR) as (w' & -> & HO' & Ht).
    { apply Owns_set_tr. rewrite Ew. now apply Owns_set_tr. }
    exists w'. csplit; [exact E1|reflexivity| |now exists r, r'].
    unfold events. rewrite Ht, set_tr_trace, Ht1. now rewrite <- app_assoc.
  - eexists. csplit; [exact E1|reflexivity| |now exists r, r'].
    unfold events. rewrite set_tr_trace, Ht1. now rewrite <- app_assoc.
Qed.
