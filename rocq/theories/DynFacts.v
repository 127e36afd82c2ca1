(** * DynFacts: proofs of the property theorems about [VecDyn]. *)

From Verif Require Export DynRunProofs.
From Verif Require Import CopyFacts2.

Lemma perm_cnt l l' : (forall q, cnt q l = cnt q l') -> Permutation l l'.
Proof. intros H. apply (Permutation_count_occ tval_dec). exact H. Qed.

(** ** C28 and C61: whole programs *)

Lemma c28_accounting_partial_fact :
  forall (V : Type) (T : FullTable V) (P : profile) (G : tenv), types_ok G ->
  forall prog rs st,
  Forall (dstep_typed G) prog -> dyn_in_range P G prog (d_init (V := V)) ->
  drun P G prog (d_init (V := V)) = (rs, st) ->
  Forall safe rs /\ List.length rs = List.length prog /\
  exists lost,
    Permutation (given G prog rs ++ cloned G (w_trace (d_world st)))
                (stored G st ++ taken G prog rs ++ dropped G (w_trace (d_world st)) ++ lost).
Proof.
  intros V T P G [HG HC HQ] prog rs st Hty Hin HE.
  destruct (drun_inv P G HG HC HQ prog d_init [] (dinv_init (V := V) G) Hty Hin)
    as (leak & lost & _ & HSf & HLn & HB & _). rewrite HE in *. cbn [fst snd] in *.
  csplit; [exact HSf|exact HLn|]. exists lost. apply perm_cnt. intros q. specialize (HB q).
  revert HB. cbn [d_init stored flat_map d_objs d_world w_trace w0]. cnts q.
  cbn [cnt count_occ cloned dropped flat_map]. lia.
Qed.

Lemma c28_exact_partial_fact :
  forall (V : Type) (T : FullTable V) (P : profile) (G : tenv), types_ok G ->
  forall prog rs st,
  Forall (dstep_typed G) prog -> dyn_in_range P G prog (d_init (V := V)) ->
  drun P G prog (d_init (V := V)) = (map Ret rs, st) -> keeps_all prog rs ->
  Permutation (given G prog (map Ret rs) ++ cloned G (w_trace (d_world st)))
              (stored G st ++ taken G prog (map Ret rs) ++ dropped G (w_trace (d_world st))) /\
  Permutation (w_live (d_world st)) (obj_blocks_of st).
Proof.
  intros V T P G [HG HC HQ] prog rs st Hty Hin HE HK.
  destruct (drun_inv P G HG HC HQ prog d_init [] (dinv_init (V := V) G) Hty Hin)
    as (leak & lost & [_ [_ HO]] & HSf & HLn & HB & HLo & _). rewrite HE in *. cbn [fst snd] in *.
  destruct (HLo rs eq_refl HK) as [-> ->]. split.
  - apply perm_cnt. intros q. specialize (HB q).
    revert HB. cbn [d_init stored flat_map d_objs d_world w_trace w0]. cnts q.
    cbn [cnt count_occ cloned dropped flat_map]. lia.
  - cbn [app] in HO. now rewrite app_nil_r in HO.
Qed.

Lemma c61_programs_partial_fact :
  forall (V : Type) (T : FullTable V) (P : profile) (G : tenv), types_ok G ->
  forall prog rs st,
  Forall (dstep_typed G) prog -> dyn_in_range P G prog (d_init (V := V)) ->
  drun P G prog (d_init (V := V)) = (map Ret rs, st) ->
  exists lst, dyn_run G prog (LState [] []) = Some (rs, lst) /\ shows_objects G st lst.
Proof.
  intros V T P G [HG HC HQ] prog rs st Hty Hin HE.
  destruct (drun_inv P G HG HC HQ prog d_init [] (dinv_init (V := V) G) Hty Hin)
    as (leak & lost & _ & _ & _ & _ & _ & HF). rewrite HE in *. cbn [fst snd] in *.
  destruct (HF (LState [] [])) as (lst & HR & HS).
  { split; [constructor|reflexivity]. }
  exists lst. split; [|now apply drel_shows].
  rewrite map_map in HR. apply dacts_all_returns; [constructor|exact HR].
Qed.

(** ** C29 and C39: dropping *)

Lemma c29_drop_fact :
  forall (V : Type) (T : FullTable V) (P : profile) (G : tenv), types_ok G ->
  forall (b : vecdyn V) w t xs,
  live_vec P G b w -> contents G b t xs ->
  exists w', vd_drop P G b w = (Ret tt, w') /\ events w (drops G t xs) w' /\
             freed w (buf_block b) w'.
Proof.
  intros V T P G [HG HC HQ] b w t xs Hb Hc.
  destruct (live_vec_rep P G HG HC HQ b w t xs Hb Hc) as (d & l & -> & HR & HO).
  destruct (drop_ok (V := V) P G HG HQ t d xs w l HR HO) as (w' & HE & HO' & Ht).
  exists w'. csplit; [exact HE|exact Ht|]. rewrite buf_block_own. cbn [vc_data].
  exact (owns_freed w w' _ l HO HO').
Qed.

Lemma c39_drop_partial_fact :
  forall (V : Type) (T : FullTable V) (P : profile) (G : tenv), types_ok G ->
  forall (b : vecdyn V) w,
  live_vec P G b w ->
  (exists t xs w', contents G b t xs /\ vd_drop P G b w = (Ret tt, w')) \/
  (lost_vec G b /\ exists p, vd_drop P G b w = (Panic p, w)).
Proof.
  intros V T P G [HG HC HQ] b w Hb. pose proof Hb as (st & h & HR & Hg & Hw).
  destruct (dreachable_inv P G HG HC HQ st HR) as [leak HI].
  destruct (vec_cases G st leak h b HI Hg) as [(t & d & xs & -> & HRep)|(t & n & k & -> & _)].
  - left. pose proof (rep_contents G (build_vtable t) t d xs HRep) as Hc.
    destruct (c29_drop_fact V T P G (Build_types_ok G HG HC HQ) _ w t xs Hb Hc) as (w' & HE & _).
    exists t, xs, w'. auto.
  - right. split; [apply (pois_lost G HG)|]. apply (drop_pois (V := V) P G n k).
Qed.

(** ** C31: cloning *)

Lemma clone_seq_events G t xs tr cs ok tr' :
  clone_seq G t xs tr = (cs, ok, tr') -> dropped G tr' = dropped G tr.
Proof.
  revert tr cs ok tr'. induction xs as [|x xs IH]; intros tr cs ok tr' H; cbn [clone_seq] in H.
  - now injection H as <- <- <-.
  - destruct (t_clone (G t) tr x) as [c|]; [|now injection H as <- <- <-].
    destruct (clone_seq G t xs _) as [[cs' ok'] tr''] eqn:E. injection H as <- <- <-.
    rewrite (IH _ _ _ _ E), dropped_app. cbn. now rewrite app_nil_r.
Qed.

Lemma c31_clone_fact :
  forall (V : Type) (T : FullTable V) (P : profile) (G : tenv), types_ok G ->
  forall (b : vecdyn V) w t xs cs tr,
  live_vec P G b w -> contents G b t xs -> clone_seq G t xs (w_trace w) = (cs, true, tr) ->
  exists b' w', vd_clone P G b w = (Ret b', w') /\ contents G b' t cs /\
                vd_vtable b' = vd_vtable b /\ w_trace w' = tr /\ allocated w (buf_block b') w'.
Proof.
  intros V T P G [HG HC HQ] b w t xs cs tr Hb Hc Hs.
  destruct (live_vec_rep P G HG HC HQ b w t xs Hb Hc) as (d & l & -> & HR & HO).
  pose proof (clone_new (V := V) P G HG HC t d xs w l HR HO) as HN. rewrite Hs in HN.
  inversion HN as [t' xs' d2 w2 Hsp HR2 HO2 HB E|p w2 leak lost _ _ _ E].
  - injection Hsp as <- <- Htr. do 2 eexists. csplit; [reflexivity| |reflexivity|symmetry; exact Htr|].
    + now apply rep_contents.
    + rewrite buf_block_own. cbn [vc_data]. exact (owns_allocated w _ _ _ HO HO2).
  - exfalso. symmetry in E. unfold vd_clone in E. cbn [vc_data vc_vtable] in E.
    destruct (vv_clone_rep P G HG t d xs w l HR HO) as (d' & w1 & E1 & HR' & _ & HO1 & Ht1).
    rewrite E1, (byte_chunks_rep P G HG t d xs HR), (byte_chunks_mut_rep P G HG t d' xs HR'), law_clone_raw in E.
    pose proof (rep_sized _ _ _ _ HR) as Hz. rewrite <- Ht1 in Hs.
    rewrite (clone_chunks_seq G t xs (map (enc G t) xs) w1 cs true tr) in E; [discriminate| |apply map_length| |exact Hs].
    + now apply Forall_sized.
    + apply Forall_forall. intros bs Hin. apply in_map_iff in Hin as (x & <- & _). apply enc_length.
Qed.

Lemma c31_clone_panics_fact :
  forall (V : Type) (T : FullTable V) (P : profile) (G : tenv), types_ok G ->
  forall (b : vecdyn V) w t xs cs tr,
  live_vec P G b w -> contents G b t xs -> clone_seq G t xs (w_trace w) = (cs, false, tr) ->
  exists w', vd_clone P G b w = (Panic PUser, w') /\ w_trace w' = tr /\
             dropped G tr = dropped G (w_trace w) /\ Permutation (w_live w) (w_live w').
Proof.
  intros V T P G [HG HC HQ] b w t xs cs tr Hb Hc Hs.
  destruct (live_vec_rep P G HG HC HQ b w t xs Hb Hc) as (d & l & -> & HR & HO).
  unfold vd_clone. cbn [vc_data vc_vtable].
  destruct (vv_clone_rep P G HG t d xs w l HR HO) as (d' & w1 & -> & HR' & _ & HO1 & Ht1).
  rewrite (byte_chunks_rep P G HG t d xs HR), (byte_chunks_mut_rep P G HG t d' xs HR'), law_clone_raw.
  pose proof (rep_sized _ _ _ _ HR) as Hz. pose proof Hs as Hs0. rewrite <- Ht1 in Hs.
  rewrite (clone_chunks_seq G t xs (map (enc G t) xs) w1 cs false tr); [|now apply Forall_sized|apply map_length| |exact Hs].
  2:{ apply Forall_forall. intros bs Hin. apply in_map_iff in Hin as (x & <- & _). apply enc_length. }
  pose proof (clone_seq_len G t xs _ cs false tr Hs) as (Hl & _ & _).
  rewrite skipn_map, <- map_app.
  assert (Hlen : lenN (cs ++ skipn (List.length cs) xs) = lenN xs).
  { unfold lenN. rewrite app_length, skipn_length. lia. }
  rewrite (set_chunks_with_vals G t d' xs _ HR' Hlen).
  destruct (vv_drop_rep P G HG t (with_vals G t d' (cs ++ skipn (List.length cs) xs)) _ (set_tr tr w1)
              (vv_own d ++ l) (with_vals_rep G t d' xs _ HR' Hlen)) as (w2 & -> & HO2 & Ht2).
  { rewrite with_vals_own. now apply Owns_set_tr. }
  cbn [unwind]. eexists. csplit; [reflexivity|now rewrite Ht2, set_tr_trace| |].
  - exact (clone_seq_events G t xs _ _ _ _ Hs0).
  - destruct HO as [_ ->]. destruct HO2 as [_ ->]. reflexivity.
Qed.

(** ** C33: push_cloned *)

Lemma sized_not_unit G t : wf_tenv G -> t_size (G t) <> 0 -> t <> unit_id.
Proof. intros HG Hz ->. apply Hz. apply HG. Qed.

Lemma c33_push_cloned_partial_fact :
  forall (V : Type) (T : FullTable V) (P : profile) (G : tenv), types_ok G ->
  forall (b : vecdyn V) (r : vref V) w t xs x c,
  live_vec_ref P G b r w -> contents G b t xs -> ref_is G r t x ->
  t_clone (G t) (w_trace w) x = Some c ->
  room G t (vc_capacity b) (lenN xs + 1) -> ~ odd_growth G t (vc_capacity b) (lenN xs + 1) ->
  exists b' w', vd_push_cloned P G r b w = (Ret true, b', w') /\ contents G b' t (xs ++ [c]) /\
                vd_vtable b' = vd_vtable b /\ events w [EvClone t x c] w'.
Proof.
  intros V T P G [HG HC HQ] b r w t xs x c Hb Hc Hr Hcl Hroom Hodd.
  destruct (live_vec_ref_rep P G HG HC HQ b r w t xs Hb Hc) as (d & l & rv & -> & HR & HO & Hrv).
  pose proof (rep_sized _ _ _ _ HR) as Hz.
  pose proof (ref_is_ok G r rv t x Hrv Hr (sized_not_unit G t HG Hz)) as Hok.
  pose proof (push_cloned_loc (V := V) P G HG HC t d xs r t x w l HR HO Hok) as HP.
  rewrite N.eqb_refl, Hcl in HP.
  inversion HP as [a ys d' w' Hsp HR' HO' HB HE|p d' w' left leak lost _ _ _ _ HE].
  - injection Hsp as <- <- Htr. do 2 eexists. csplit; [reflexivity|now apply rep_contents|reflexivity|].
    unfold events. now rewrite Htr.
  - exfalso. unfold vc_capacity in *. cbn [vc_data] in *. clear HP. symmetry in HE.
    unfold vd_push_cloned, vd_element_type_id, vc_element_type_id, on_data in HE.
    cbn [vc_data vc_vtable] in HE.
    remember (Some (t, x)) as tv eqn:Etv.
    destruct Hok as [t' v Hbs Hty _ _ Hiv|]; [|discriminate]. injection Etv as -> ->.
    rewrite (rep_type G _ _ _ HR), Hty, N.eqb_refl, law_clone_raw, Hbs in HE.
    assert (Hinit : forall bs w1, lenN bs = t_size (G t) -> w_trace w1 = w_trace w ->
       call_clone_into_raw G (CloneRawOf t) (enc G t x) bs w1 =
       (Ret (enc G t c), set_tr (w_trace w1 ++ [EvClone t x c]) w1)).
    { intros bs w1 Hbl Ht1. rewrite call_clone_into_raw_eq by assumption. now rewrite Ht1, Hcl. }
    revert HE. destruct (vv_resize_with_one P G HG t d xs
      (fun uninit w => call_clone_into_raw G (CloneRawOf t) (enc G t x) uninit w) w l HR HO) as [ | w1 q w2 w2' Hw1 Hi HO2 Ht2 | w2 Hlt Hmax HO2 Ht2 | w1 v w2 i Hbad Hw1 Hi HO2].
    + intros bs w1 Hbl. rewrite call_clone_into_raw_eq by assumption.
      destruct (t_clone (G t) (w_trace w1) x) as [c1|].
      * left. do 2 eexists. split; [reflexivity|]. intros l'. symmetry. apply Owns_set_tr.
      * right. do 2 eexists. split; [reflexivity|]. reflexivity.
    + cbn [obind]. discriminate.
    + rewrite Hinit in Hi by (exact Hw1 || (unfold lenN; rewrite repeat_length; lia)). discriminate.
    + destruct Hroom as [?|Hg]; [lia|]. unfold growth_fits in Hg. lia.
    + now destruct (Hodd Hbad).
Qed.

Lemma c33_other_type_fact :
  forall (V : Type) (T : FullTable V) (P : profile) (G : tenv), types_ok G ->
  forall (b : vecdyn V) (r : vref V) w t xs,
  live_vec_ref P G b r w -> contents G b t xs -> vr_type_id r <> t ->
  vd_push_cloned P G r b w = (Ret false, b, w).
Proof.
  intros V T P G [HG HC HQ] b r w t xs Hb Hc Hr.
  destruct (live_vec_ref_rep P G HG HC HQ b r w t xs Hb Hc) as (d & l & rv & -> & HR & HO & Hrv).
  unfold vd_push_cloned, vd_element_type_id, vc_element_type_id. cbn [vc_data].
  rewrite (rep_type G _ _ _ HR). destruct (t =? vr_type_id r) eqn:E; [|reflexivity].
  apply N.eqb_eq in E. congruence.
Qed.

(** When the element's clone panics the vector has lost all its elements. *)
Lemma c33_panicking_clone_loses_fact :
  forall (V : Type) (T : FullTable V) (P : profile) (G : tenv), types_ok G ->
  forall (b : vecdyn V) (r : vref V) w t xs x,
  live_vec_ref P G b r w -> contents G b t xs -> ref_is G r t x ->
  t_clone (G t) (w_trace w) x = None ->
  room G t (vc_capacity b) (lenN xs + 1) ->
  exists b' w', vd_push_cloned P G r b w = (Panic PUser, b', w') /\ lost_vec G b' /\
                w_trace w' = w_trace w.
Proof.
  intros V T P G [HG HC HQ] b r w t xs x Hb Hc Hr Hcl Hroom.
  destruct (live_vec_ref_rep P G HG HC HQ b r w t xs Hb Hc) as (d & l & rv & -> & HR & HO & Hrv).
  pose proof (rep_sized _ _ _ _ HR) as Hz.
  pose proof (ref_is_ok G r rv t x Hrv Hr (sized_not_unit G t HG Hz)) as Hok.
  unfold vc_capacity in *. cbn [vc_data] in *.
  unfold vd_push_cloned, vd_element_type_id, vc_element_type_id, on_data. cbn [vc_data vc_vtable].
  remember (Some (t, x)) as tv eqn:Etv.
  destruct Hok as [t' v Hbs Hty _ _ Hiv|]; [|discriminate]. injection Etv as -> ->.
  rewrite (rep_type G _ _ _ HR), Hty, N.eqb_refl, law_clone_raw, Hbs.
  assert (Hinit : forall bs w1, lenN bs = t_size (G t) -> w_trace w1 = w_trace w ->
       call_clone_into_raw G (CloneRawOf t) (enc G t x) bs w1 = (Panic PUser, w1)).
  { intros bs w1 Hbl Ht1. rewrite call_clone_into_raw_eq by assumption. now rewrite Ht1, Hcl. }
  assert (Hrl : lenN (repeat (Byte 0) (N.to_nat (t_size (G t)))) = t_size (G t))
    by (unfold lenN; rewrite repeat_length; lia).
  destruct (vv_resize_with_one P G HG t d xs
      (fun uninit w => call_clone_into_raw G (CloneRawOf t) (enc G t x) uninit w) w l HR HO)
    as [ w1 v d' w' Hw1 Hi _ _ _ _ _ _ | w1 q w2 w2' Hw1 Hi HO2 Ht2 | w2 Hlt Hmax HO2 Ht2 | w1 v w2 i Hbad Hw1 Hi HO2].
  - intros bs w1 Hbl. rewrite call_clone_into_raw_eq by assumption.
    destruct (t_clone (G t) (w_trace w1) x) as [c1|].
    + left. do 2 eexists. split; [reflexivity|]. intros l'. symmetry. apply Owns_set_tr.
    + right. do 2 eexists. split; [reflexivity|]. reflexivity.
  - rewrite Hinit in Hi by assumption. discriminate.
  - rewrite Hinit in Hi by assumption. injection Hi as <- <-. cbn [obind].
    do 2 eexists. csplit; [reflexivity|apply (pois_lost G HG)|now rewrite Ht2].
  - exfalso. destruct Hroom as [?|Hg]; [lia|]. unfold growth_fits in Hg. lia.
  - rewrite Hinit in Hi by assumption. discriminate.
Qed.
