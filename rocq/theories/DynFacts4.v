(** * DynFacts4: proofs of the property theorems about owned values and references. *)

From Verif Require Export DynFacts3.
From Verif Require Import CopyFacts2 SliceFacts UpcastFacts.
From Verif Require Import DynReach.

Lemma world_owns w : wf_world w -> Owns w (w_live w).
Proof. intros H. now split. Qed.

(** ** C40: owned values *)

Lemma c40_new_fact :
  forall (V : Type) (T : FullTable V) (G : tenv), types_ok G ->
  forall t x w, is_value G t x -> wf_world w ->
  exists (v : value V) w', bv_new G t x w = (v, w') /\ value_is G v t x /\
    (exists b, vl_store v = Boxed b) /\ events w [] w' /\ allocated w (val_blocks v) w'.
Proof.
  intros V T G [HG HC HQ] t x w Hx Hw.
  destruct (bv_new_rep (V := V) G t x w _ Hx (world_owns w Hw)) as (v & w' & E & HV & Hb & HO & Ht).
  exists v, w'. csplit; [exact E|now apply vrep_is|exact Hb|unfold events; now rewrite app_nil_r|].
  unfold val_blocks. rewrite obj_blocks_own. exact (owns_allocated _ _ _ _ (world_owns w Hw) HO).
Qed.

Lemma c40_drop_fact :
  forall (V : Type) (T : FullTable V) (P : profile) (G : tenv), types_ok G ->
  forall (v : value V) w t x,
  live_val P G v w -> value_is G v t x ->
  exists w', vl_drop G v w = (Ret tt, w') /\ events w (drops G t [x]) w' /\ freed w (val_blocks v) w'.
Proof.
  intros V T P G [HG HC HQ] v w t x Hl Hi.
  destruct (live_val_rep P G HG HC HQ v w t x Hl Hi) as [HV [l HO]]. unfold val_blocks.
  rewrite obj_blocks_own in *. destruct (vl_drop_rep G HG HQ v t x w l HV HO) as (w' & E & HO' & Ht).
  exists w'. csplit; [exact E|exact Ht|exact (owns_freed _ _ _ _ HO HO')].
Qed.

Lemma c40_downcast_box_fact :
  forall (V : Type) (T : FullTable V) (P : profile) (G : tenv), types_ok G ->
  forall (v : value V) b w t x,
  live_val P G v w -> value_is G v t x -> vl_store v = Boxed b ->
  exists bx w', bv_downcast G t v w = (Ret (Some bx), w') /\ tb_val bx = x /\ events w [] w' /\
    exists w'', tbox_drop G t bx w' = (Ret tt, w'') /\ events w (drops G t [x]) w'' /\
                freed w (val_blocks v) w''.
Proof.
  intros V T P G [HG HC HQ] v b w t x Hl Hi Hb.
  destruct (live_val_rep P G HG HC HQ v w t x Hl Hi) as [HV [l HO]]. unfold val_blocks.
  rewrite obj_blocks_own in *.
  destruct (bv_downcast_rep G v t x b t w l HV Hb HO) as (w' & E & HO' & Ht).
  rewrite N.eqb_refl in E. do 2 eexists. csplit; [exact E|reflexivity|unfold events; now rewrite app_nil_r|].
  unfold tbox_drop. cbn [tb_val tb_blk]. rewrite (drop_val_q G HQ).
  pose proof (vp_store _ _ _ _ HV) as Hp. rewrite Hb in Hp.
  destruct (dealloc_owns b (t_size (G t)) (t_align (G t)) (set_tr (w_trace w' ++ drops G t [x]) w') l Hp)
    as (w2 & -> & HO2 & Ht2).
  { now apply Owns_set_tr. }
  exists w2. csplit; [reflexivity|unfold events; now rewrite Ht2, set_tr_trace, Ht|].
  exact (owns_freed _ _ _ _ HO HO2).
Qed.

Lemma c40_downcast_small_fact :
  forall (V : Type) (T : FullTable V) (P : profile) (G : tenv), types_ok G ->
  forall (v : value V) w t x,
  live_val P G v w -> value_is G v t x -> vl_store v = Inline ->
  exists w', sv_downcast G t v w = (Ret (Some x), w') /\ events w [] w' /\ freed w (val_blocks v) w'.
Proof.
  intros V T P G [HG HC HQ] v w t x Hl Hi Hb.
  destruct (live_val_rep P G HG HC HQ v w t x Hl Hi) as [HV [l HO]]. unfold val_blocks.
  rewrite obj_blocks_own in *.
  destruct (sv_downcast_rep G v t x t w l HV Hb HO) as (w' & E & HO' & Ht).
  rewrite N.eqb_refl in E. exists w'. csplit; [exact E|unfold events; now rewrite app_nil_r|].
  exact (owns_freed _ _ _ _ HO HO').
Qed.

Lemma c40_clone_fact :
  forall (V : Type) (T : FullTable V) (P : profile) (G : tenv), types_ok G ->
  forall (v : value V) w t x,
  live_val P G v w -> value_is G v t x ->
  match t_clone (G t) (w_trace w) x with
  | Some c =>
      exists v' w', vl_clone G v w = (Ret v', w') /\ value_is G v' t c /\ same_kind v v' /\
                    events w [EvClone t x c] w' /\ allocated w (val_blocks v') w'
  | None => vl_clone G v w = (Panic PUser, w)
  end.
Proof.
  intros V T P G [HG HC HQ] v w t x Hl Hi.
  destruct (live_val_rep P G HG HC HQ v w t x Hl Hi) as [HV [l HO]].
  assert (HOw : Owns w (w_live w)) by (apply world_owns; exact (proj1 HO)).
  unfold vl_clone, bv_clone, sv_clone, vr_clone_value, vr_clone_small_value, vl_as_ref.
  cbn [vr_bytes vr_type_id vr_alignment vr_vtable vt_as_ref].
  rewrite (vp_bytes _ _ _ _ HV), (vp_type _ _ _ _ HV), (vp_align _ _ _ _ HV), (vp_table _ _ _ _ HV).
  pose proof (vp_store _ _ _ _ HV) as Hst.
  pose proof (clone_value_rep (V := V) G HC t x w _ (vp_val _ _ _ _ HV) HOw) as HB.
  pose proof (clone_small_rep (V := V) G HC HQ t x w _ (vp_val _ _ _ _ HV) HOw) as HS.
  unfold same_kind, val_blocks. destruct (vl_store v) as [b|].
  - destruct (t_clone (G t) (w_trace w) x) as [c|]; [|exact HB].
    destruct HB as (v' & w' & E & HV' & [b' Hb'] & HO' & Ht). exists v', w'. rewrite Hb', obj_blocks_own.
    csplit; [exact E|now apply vrep_is|exact I|exact Ht|exact (owns_allocated _ _ _ _ HOw HO')].
  - destruct (t_clone (G t) (w_trace w) x) as [c|]; [|exact HS].
    rewrite Hst in HS. cbn [N.eqb] in HS. change (8 =? 8) with true in HS.
    destruct HS as (v' & w' & E & HV' & Hb' & HO' & Ht). exists v', w'. rewrite Hb', obj_blocks_own.
    csplit; [exact E|now apply vrep_is|exact I|exact Ht|exact (owns_allocated _ _ _ _ HOw HO')].
Qed.

(** Cloning what a reference points to. *)
Lemma c40_clone_value_fact :
  forall (V : Type) (T : FullTable V) (P : profile) (G : tenv), types_ok G ->
  forall (r : vref V) w t x,
  live_ref P G r w -> ref_is G r t x -> t <> unit_id ->
  match t_clone (G t) (w_trace w) x with
  | Some c =>
      exists v' w', vr_clone_value G r w = (Ret v', w') /\ value_is G v' t c /\
                    (exists b, vl_store v' = Boxed b) /\
                    events w [EvClone t x c] w' /\ allocated w (val_blocks v') w'
  | None => vr_clone_value G r w = (Panic PUser, w)
  end.
Proof.
  intros V T P G [HG HC HQ] r w t x Hl Hi Hu.
  destruct (live_ref_ok P G HG HC HQ r w Hl) as (rv & Hr & Hw).
  pose proof (ref_is_ok G r rv t x Hr Hi Hu) as Hok. remember (Some (t, x)) as tv eqn:Etv.
  destruct Hok as [t' v Hbs Hty Hal Hvt Hiv|]; [|discriminate]. injection Etv as -> ->.
  unfold vr_clone_value. rewrite Hbs, Hty, Hal, Hvt.
  pose proof (clone_value_rep (V := V) G HC t x w _ Hiv (world_owns w Hw)) as HB.
  destruct (t_clone (G t) (w_trace w) x) as [c|]; [|exact HB].
  destruct HB as (v' & w' & E & HV' & Hb' & HO' & Ht). exists v', w'. unfold val_blocks. rewrite obj_blocks_own.
  csplit; [exact E|now apply vrep_is|exact Hb'|exact Ht|exact (owns_allocated _ _ _ _ (world_owns w Hw) HO')].
Qed.

Lemma c40_clone_small_value_fact :
  forall (V : Type) (T : FullTable V) (P : profile) (G : tenv), types_ok G ->
  forall (r : vref V) w t x,
  live_ref P G r w -> ref_is G r t x -> t_size (G t) = 8 ->
  match t_clone (G t) (w_trace w) x with
  | Some c =>
      exists v' w', vr_clone_small_value G r w = (Ret v', w') /\ value_is G v' t c /\
                    vl_store v' = Inline /\
                    events w [EvClone t x c] w' /\ allocated w (val_blocks v') w'
  | None => vr_clone_small_value G r w = (Panic PUser, w)
  end.
Proof.
  intros V T P G [HG HC HQ] r w t x Hl Hi H8.
  assert (Hu : t <> unit_id) by (apply (sized_not_unit G t HG); lia).
  destruct (live_ref_ok P G HG HC HQ r w Hl) as (rv & Hr & Hw).
  pose proof (ref_is_ok G r rv t x Hr Hi Hu) as Hok. remember (Some (t, x)) as tv eqn:Etv.
  destruct Hok as [t' v Hbs Hty Hal Hvt Hiv|]; [|discriminate]. injection Etv as -> ->.
  unfold vr_clone_small_value. rewrite Hbs, Hty, Hal, Hvt.
  pose proof (clone_small_rep (V := V) G HC HQ t x w _ Hiv (world_owns w Hw)) as HB.
  rewrite H8 in HB. change (8 =? 8) with true in HB.
  destruct (t_clone (G t) (w_trace w) x) as [c|]; [|exact HB].
  destruct HB as (v' & w' & E & HV' & Hb' & HO' & Ht). exists v', w'. unfold val_blocks. rewrite obj_blocks_own.
  csplit; [exact E|now apply vrep_is|exact Hb'|exact Ht|exact (owns_allocated _ _ _ _ (world_owns w Hw) HO')].
Qed.

(** A clone that does not fit a word: the clone is dropped and the call panics. *)
Lemma c40_clone_small_too_big_fact :
  forall (V : Type) (T : FullTable V) (P : profile) (G : tenv), types_ok G ->
  forall (r : vref V) w t x c,
  live_ref P G r w -> ref_is G r t x -> t <> unit_id -> t_size (G t) <> 8 ->
  t_clone (G t) (w_trace w) x = Some c ->
  exists p w', vr_clone_small_value G r w = (Panic p, w') /\
    events w ([EvClone t x c] ++ drops G t [c]) w' /\ w_live w' = w_live w.
Proof.
  intros V T P G [HG HC HQ] r w t x c Hl Hi Hu H8 Hc.
  destruct (live_ref_ok P G HG HC HQ r w Hl) as (rv & Hr & Hw).
  pose proof (ref_is_ok G r rv t x Hr Hi Hu) as Hok. remember (Some (t, x)) as tv eqn:Etv.
  destruct Hok as [t' v Hbs Hty Hal Hvt Hiv|]; [|discriminate]. injection Etv as -> ->.
  unfold vr_clone_small_value. rewrite Hbs, Hty, Hal, Hvt.
  pose proof (clone_small_rep (V := V) G HC HQ t x w _ Hiv (world_owns w Hw)) as HB.
  rewrite Hc, (proj2 (N.eqb_neq _ _) H8) in HB. destruct HB as [p ->]. do 2 eexists.
  csplit; [reflexivity|apply set_tr_trace|reflexivity].
Qed.

(** ** C41: a failed downcast *)

Lemma c41_leaks_fact :
  forall (V : Type) (T : FullTable V) (P : profile) (G : tenv), types_ok G ->
  forall (v : value V) i w t x t',
  live_val P G v w -> value_is G v t x -> vl_store v = Boxed (Some i) -> t_size (G t) <> 0 ->
  t' <> t ->
  exists w', bv_downcast G t' v w = (Ret None, w') /\ events w [] w' /\
             In (i, (t_size (G t), t_align (G t))) (w_live w').
Proof.
  intros V T P G [HG HC HQ] v i w t x t' Hl Hi Hb Hz Hne.
  destruct (live_val_rep P G HG HC HQ v w t x Hl Hi) as [HV [l HO]]. rewrite obj_blocks_own in *.
  destruct (bv_downcast_rep G v t x (Some i) t' w l HV Hb HO) as (w' & E & [_ HP] & Ht).
  assert (Hne' : t =? t' = false) by (apply N.eqb_neq; congruence). rewrite Hne' in E.
  exists w'. csplit; [exact E|unfold events; now rewrite app_nil_r|].
  rewrite HP. unfold owned. rewrite (proj2 (N.eqb_neq _ _) Hz). now left.
Qed.

Lemma c41_small_leaks_fact :
  forall (V : Type) (T : FullTable V) (P : profile) (G : tenv), types_ok G ->
  forall (v : value V) w t x t',
  live_val P G v w -> value_is G v t x -> vl_store v = Inline -> t' <> t ->
  exists w', sv_downcast G t' v w = (Ret None, w') /\ events w [] w'.
Proof.
  intros V T P G [HG HC HQ] v w t x t' Hl Hi Hb Hne.
  destruct (live_val_rep P G HG HC HQ v w t x Hl Hi) as [HV [l HO]]. rewrite obj_blocks_own in *.
  destruct (sv_downcast_rep G v t x t' w l HV Hb HO) as (w' & E & _ & Ht).
  assert (Hne' : t =? t' = false) by (apply N.eqb_neq; congruence). rewrite Hne' in E.
  exists w'. csplit; [exact E|unfold events; now rewrite app_nil_r].
Qed.

Lemma c41_copy_partial_fact :
  forall (V : Type) (T : FullTable V) (P : profile) (G : tenv), types_ok G ->
  forall (v : value V) w t x t',
  live_val P G v w -> value_is G v t x -> vl_store v = Inline -> t_copy (G t) = true -> t' <> t ->
  exists w', sv_downcast G t' v w = (Ret None, w') /\ events w (drops G t [x]) w' /\
             freed w (val_blocks v) w'.
Proof.
  intros V T P G [HG HC HQ] v w t x t' Hl Hi Hb Hcp Hne.
  destruct (live_val_rep P G HG HC HQ v w t x Hl Hi) as [HV [l HO]]. unfold val_blocks. rewrite obj_blocks_own in *.
  destruct (sv_downcast_rep G v t x t' w l HV Hb HO) as (w' & E & HO' & Ht).
  assert (Hne' : t =? t' = false) by (apply N.eqb_neq; congruence). rewrite Hne' in E.
  exists w'. csplit; [exact E| |exact (owns_freed _ _ _ _ HO HO')].
  unfold events, drops. now rewrite Hcp, app_nil_r.
Qed.

(** ** C42: SmallValue *)

Lemma c42_try_new_partial_fact :
  forall (V : Type) (T : FullTable V) (G : tenv), types_ok G ->
  forall t x w, is_value G t x -> wf_world w ->
  (t_size (G t) = 8 ->
   exists (v : value V) w', sv_try_new G t x w = (Some v, w') /\ sv_new G t x w = (Ret v, w') /\
     value_is G v t x /\ vl_store v = Inline /\ events w [] w' /\ allocated w (val_blocks v) w') /\
  (t_size (G t) <> 8 ->
   sv_try_new (V := V) G t x w = (None, w) /\ exists p, sv_new (V := V) G t x w = (Panic p, w)).
Proof.
  intros V T G [HG HC HQ] t x w Hx Hw.
  pose proof (sv_try_new_rep (V := V) G t x w _ Hx (world_owns w Hw)) as H. split; intros H8.
  - rewrite H8 in H. change (8 =? 8) with true in H. destruct H as (v & w' & E & HV & Hb & HO & Ht).
    exists v, w'. unfold sv_new. rewrite E.
    csplit; [reflexivity|reflexivity|now apply vrep_is|exact Hb|unfold events; now rewrite app_nil_r|].
    unfold val_blocks. rewrite obj_blocks_own. exact (owns_allocated _ _ _ _ (world_owns w Hw) HO).
  - rewrite (proj2 (N.eqb_neq _ _) H8) in H. unfold sv_new. rewrite H. eauto.
Qed.

(** ** C43: swap, assign, clone_from_other *)

Lemma c43_swap_values_fact :
  forall (V : Type) (T : FullTable V) (P : profile) (G : tenv), types_ok G ->
  forall (v v' : value V) w t x t' x',
  live_vals P G v v' w -> value_is G v t x -> value_is G v' t' x' ->
  exists m m', vm_swap (vl_as_mut v) (vl_as_mut v') = (Ret tt, m, m') /\
    (t = t' -> value_is G (vl_with_bytes v (vm_bytes m)) t x' /\
               value_is G (vl_with_bytes v' (vm_bytes m')) t x) /\
    (t <> t' -> vl_with_bytes v (vm_bytes m) = v /\ vl_with_bytes v' (vm_bytes m') = v').
Proof.
  intros V T P G [HG HC HQ] v v' w t x t' x' Hl Hi Hi'.
  destruct (live_vals_rep P G HG HC HQ v v' w t x t' x' Hl Hi Hi') as (HV & HV' & _).
  destruct (vm_swap_ok G _ t x _ t' x' (mut_value G v t x HV) (mut_value G v' t' x' HV'))
    as (m & m' & E & Hm & Hm'). exists m, m'. split; [exact E|]. split.
  - intros <-. rewrite N.eqb_refl in *. rewrite Hm, Hm'. split; apply vrep_is.
    + eapply vl_with_bytes_rep; [exact HV|apply (vp_val _ _ _ _ HV')].
    + eapply vl_with_bytes_rep; [exact HV'|apply (vp_val _ _ _ _ HV)].
  - intros Hne. apply N.eqb_neq in Hne. rewrite Hne in *. rewrite Hm, Hm'.
    split; eapply vl_with_bytes_same; eassumption.
Qed.

Lemma c43_assign_value_fact :
  forall (V : Type) (T : FullTable V) (P : profile) (G : tenv), types_ok G ->
  forall (v v' : value V) w t x t' x',
  live_vals P G v v' w -> value_is G v t x -> value_is G v' t' x' ->
  exists m w', vm_assign G (vl_as_mut v) v' w = (Ret tt, m, w') /\ freed w (val_blocks v') w' /\
    (t = t' -> value_is G (vl_with_bytes v (vm_bytes m)) t x' /\ events w (drops G t [x]) w') /\
    (t <> t' -> vl_with_bytes v (vm_bytes m) = v /\ events w (drops G t' [x']) w').
Proof.
  intros V T P G [HG HC HQ] v v' w t x t' x' Hl Hi Hi'.
  destruct (live_vals_rep P G HG HC HQ v v' w t x t' x' Hl Hi Hi') as (HV & HV' & l & HO).
  rewrite !obj_blocks_own in HO. apply Owns_swap in HO.
  destruct (vm_assign_ok G HG HQ _ t x v' t' x' w _ (mut_value G v t x HV) HV' HO)
    as (m & w' & E & Hm & HO' & Ht). exists m, w'. split; [exact E|]. split.
  { unfold val_blocks. rewrite obj_blocks_own. exact (owns_freed _ _ _ _ HO HO'). }
  unfold events. split.
  - intros <-. rewrite N.eqb_refl in *. rewrite Hm. split; [|exact Ht]. apply vrep_is.
    eapply vl_with_bytes_rep; [exact HV|apply (vp_val _ _ _ _ HV')].
  - intros Hne. apply N.eqb_neq in Hne. rewrite Hne in *. rewrite Hm.
    split; [eapply vl_with_bytes_same; eassumption|exact Ht].
Qed.

Lemma c43_clone_from_value_fact :
  forall (V : Type) (T : FullTable V) (P : profile) (G : tenv), types_ok G ->
  forall (v : value V) (r : vref V) w t x y c,
  live_val_ref P G v r w -> value_is G v t x -> ref_is G r t y -> t <> unit_id ->
  t_clone (G t) (w_trace w) y = Some c ->
  exists m w', vm_clone_from_other G (vl_as_mut v) r w = (Ret (inl tt), m, w') /\
    value_is G (vl_with_bytes v (vm_bytes m)) t c /\
    events w (EvClone t y c :: drops G t [x]) w' /\ w_live w' = w_live w.
Proof.
  intros V T P G [HG HC HQ] v r w t x y c Hl Hi Hr Hu Hc.
  destruct (live_val_ref_rep P G HG HC HQ v r w t x Hl Hi) as (HV & Hw & rv & Hrv).
  pose proof (ref_is_ok G r rv t y Hrv Hr Hu) as Hok.
  pose proof (vm_clone_from_ok G HQ _ t x r t y w (mut_value G v t x HV) Hok) as H.
  rewrite N.eqb_refl, Hc in H. destruct H as (m & E & Hm). do 2 eexists. csplit; [exact E| | |reflexivity].
  - rewrite Hm. apply vrep_is. eapply vl_with_bytes_rep; [exact HV|]. eapply HC; eassumption.
  - apply set_tr_trace.
Qed.

Lemma c43_clone_from_other_type_fact :
  forall (V : Type) (T : FullTable V) (P : profile) (G : tenv), types_ok G ->
  forall (v : value V) (r : vref V) w t x,
  live_val_ref P G v r w -> value_is G v t x -> vr_type_id r <> t ->
  vm_clone_from_other G (vl_as_mut v) r w =
  (Ret (inr (MismatchedTypes t (vr_type_id r))), vl_as_mut v, w).
Proof.
  intros V T P G [HG HC HQ] v r w t x Hl [Ht _] Hne. unfold vm_clone_from_other, vl_as_mut.
  cbn [vm_type_id]. rewrite Ht. destruct (N.eqb_spec t (vr_type_id r)); [congruence|reflexivity].
Qed.

(** The same through [get_mut] on the elements of vectors. *)
Lemma c43_swap_elements_fact :
  forall (V : Type) (T : FullTable V) (P : profile) (G : tenv), types_ok G ->
  forall (b b' : vecdyn V) w t xs t' ys i j x y,
  live_vecs P G b b' w -> contents G b t xs -> contents G b' t' ys ->
  nthN xs i = Some x -> nthN ys j = Some y ->
  exists b1 b1', vd_swap P i b j b' = (Ret tt, b1, b1') /\
    (t = t' -> contents G b1 t (list_set xs (N.to_nat i) y) /\
               contents G b1' t (list_set ys (N.to_nat j) x)) /\
    (t <> t' -> b1 = b /\ b1' = b').
Proof.
  intros V T P G [HG HC HQ] b b' w t xs t' ys i j x y Hl Hc Hc' Hx Hy.
  destruct (live_vecs_rep P G HG HC HQ b b' w t xs t' ys Hl Hc Hc') as (d & d' & l & -> & -> & HR & HR' & _).
  unfold vd_swap. rewrite (vd_get_mut_rep P G HG t d _ xs i x HR Hx), (vd_get_mut_rep P G HG t' d' _ ys j y HR' Hy).
  cbn [vc_data vc_vtable].
  pose proof (rep_sized _ _ _ _ HR) as Hz. pose proof (rep_sized _ _ _ _ HR') as Hz'.
  destruct (vm_swap_ok G _ t x _ t' y (mut_elem (V := V) G t x Hz) (mut_elem (V := V) G t' y Hz'))
    as (m & m' & -> & Hm & Hm').
  assert (Li : i < lenN xs) by (eapply nthN_some; eassumption).
  assert (Lj : j < lenN ys) by (eapply nthN_some; eassumption).
  do 2 eexists. split; [reflexivity|]. rewrite Hm, Hm'. split.
  - intros <-. rewrite N.eqb_refl.
    rewrite (splice_one_with_vals G t d xs i y HR Li), (splice_one_with_vals G t d' ys j x HR' Lj).
    split; apply rep_contents; eapply with_vals_rep; try eassumption; apply lenN_list_set.
  - intros Hne. apply N.eqb_neq in Hne. rewrite Hne.
    rewrite (splice_one_with_vals G t d xs i x HR Li), (splice_one_with_vals G t' d' ys j y HR' Lj).
    rewrite (list_set_nthN xs i x Hx), (list_set_nthN ys j y Hy).
    now rewrite (with_vals_id G t d xs HR), (with_vals_id G t' d' ys HR').
Qed.

Lemma c43_assign_element_fact :
  forall (V : Type) (T : FullTable V) (P : profile) (G : tenv), types_ok G ->
  forall (b : vecdyn V) (v : value V) w t xs t' x i old,
  live_vec_val P G b v w -> contents G b t xs -> value_is G v t' x -> nthN xs i = Some old ->
  exists b' w', vd_assign P G i v b w = (Ret tt, b', w') /\ freed w (val_blocks v) w' /\
    (t = t' -> contents G b' t (list_set xs (N.to_nat i) x) /\ events w (drops G t [old]) w') /\
    (t <> t' -> b' = b /\ events w (drops G t' [x]) w').
Proof.
  intros V T P G [HG HC HQ] b v w t xs t' x i old Hl Hc Hv Hi.
  destruct (live_vec_val_rep P G HG HC HQ b v w t xs t' x Hl Hc Hv) as (d & l & -> & HR & HV & HO).
  rewrite obj_blocks_own in HO. apply Owns_swap in HO.
  pose proof (rep_sized _ _ _ _ HR) as Hz.
  assert (Li : i < lenN xs) by (eapply nthN_some; eassumption).
  unfold vd_assign, vd_with_mut. rewrite (vd_get_mut_rep P G HG t d _ xs i old HR Hi). cbn [vc_data vc_vtable].
  destruct (vm_assign_ok G HG HQ _ t old v t' x w _ (mut_elem (V := V) G t old Hz) HV HO)
    as (m & w' & -> & Hm & HO' & Ht). do 2 eexists. split; [reflexivity|]. split.
  { unfold val_blocks. rewrite obj_blocks_own. exact (owns_freed _ _ _ _ HO HO'). }
  unfold events. rewrite Hm. split.
  - intros <-. rewrite N.eqb_refl in *. split; [|exact Ht].
    rewrite (splice_one_with_vals G t d xs i x HR Li). apply rep_contents. eapply with_vals_rep; try eassumption.
    apply lenN_list_set.
  - intros Hne. apply N.eqb_neq in Hne. rewrite Hne in *. split; [|exact Ht].
    rewrite (splice_one_with_vals G t d xs i old HR Li), (list_set_nthN xs i old Hi).
    now rewrite (with_vals_id G t d xs HR).
Qed.

(** Writing through the typed reference that [downcast] gives. *)
Lemma vm_downcast_assign_ok {V} `{VTable V} G (HQ : drops_quietly G) (m : vmut V) t x t' y w :
  mut_ok G m t x ->
  exists m', vm_downcast_assign G t' y m w = (Ret (t =? t'), m', set_tr (w_trace w ++ drops G t' [if t =? t' then x else y]) w) /\
    vm_bytes m' = if t =? t' then enc G t y else enc G t x.
Proof.
  intros (Hb & Ht & _ & Hx). unfold vm_downcast_assign. rewrite Ht. destruct (t =? t') eqn:E.
  - apply N.eqb_eq in E as <-. rewrite Hb, from_bytes_enc by exact Hx. unfold assign_val. rewrite drop_val_q by exact HQ.
    eexists. split; reflexivity.
  - rewrite drop_val_q by exact HQ. eexists. split; [reflexivity|exact Hb].
Qed.

Lemma c43_downcast_value_fact :
  forall (V : Type) (T : FullTable V) (P : profile) (G : tenv), types_ok G ->
  forall (v : value V) w t x t' y,
  live_val P G v w -> value_is G v t x -> is_value G t' y ->
  exists m w', vm_downcast_assign G t' y (vl_as_mut v) w = (Ret (t =? t'), m, w') /\ w_live w' = w_live w /\
    (t = t' -> value_is G (vl_with_bytes v (vm_bytes m)) t y /\ events w (drops G t [x]) w') /\
    (t <> t' -> vl_with_bytes v (vm_bytes m) = v /\ events w (drops G t' [y]) w').
Proof.
  intros V T P G [HG HC HQ] v w t x t' y Hl Hi Hy.
  destruct (live_val_rep P G HG HC HQ v w t x Hl Hi) as [HV _].
  destruct (vm_downcast_assign_ok G HQ _ t x t' y w (mut_value G v t x HV)) as (m & E & Hm).
  do 2 eexists. split; [exact E|]. split; [reflexivity|]. unfold events. rewrite Hm, set_tr_trace. split.
  - intros <-. rewrite N.eqb_refl. split; [|reflexivity]. apply vrep_is. eapply vl_with_bytes_rep; eassumption.
  - intros Hne. apply N.eqb_neq in Hne. rewrite Hne. split; [eapply vl_with_bytes_same; eassumption|reflexivity].
Qed.

Lemma c43_downcast_element_fact :
  forall (V : Type) (T : FullTable V) (P : profile) (G : tenv), types_ok G ->
  forall (b : vecdyn V) w t xs t' y i old,
  live_vec P G b w -> contents G b t xs -> nthN xs i = Some old ->
  exists b' w', vd_with_mut P i (vm_downcast_assign G t' y) b w = (Ret (t =? t'), b', w') /\ w_live w' = w_live w /\
    (t = t' -> contents G b' t (list_set xs (N.to_nat i) y) /\ events w (drops G t [old]) w') /\
    (t <> t' -> b' = b /\ events w (drops G t' [y]) w').
Proof.
  intros V T P G [HG HC HQ] b w t xs t' y i old Hl Hc Hi.
  destruct (live_vec_rep P G HG HC HQ b w t xs Hl Hc) as (d & l & -> & HR & HO).
  pose proof (rep_sized _ _ _ _ HR) as Hz.
  assert (Li : i < lenN xs) by (eapply nthN_some; eassumption).
  unfold vd_with_mut. rewrite (vd_get_mut_rep P G HG t d _ xs i old HR Hi). cbn [vc_data vc_vtable].
  destruct (vm_downcast_assign_ok G HQ _ t old t' y w (mut_elem (V := V) G t old Hz)) as (m & E & Hm). rewrite E.
  do 2 eexists. split; [reflexivity|]. split; [reflexivity|]. unfold events. rewrite Hm, set_tr_trace. split.
  - intros <-. rewrite N.eqb_refl. split; [|reflexivity].
    rewrite (splice_one_with_vals G t d xs i y HR Li). apply rep_contents. eapply with_vals_rep; try eassumption.
    apply lenN_list_set.
  - intros Hne. apply N.eqb_neq in Hne. rewrite Hne. split; [|reflexivity].
    rewrite (splice_one_with_vals G t d xs i old HR Li), (list_set_nthN xs i old Hi).
    now rewrite (with_vals_id G t d xs HR).
Qed.

Lemma c43_clone_from_element_fact :
  forall (V : Type) (T : FullTable V) (P : profile) (G : tenv), types_ok G ->
  forall (b : vecdyn V) (r : vref V) w t xs i old y c,
  live_vec_ref P G b r w -> contents G b t xs -> ref_is G r t y -> nthN xs i = Some old ->
  t_clone (G t) (w_trace w) y = Some c ->
  exists b' w', vd_clone_from_other P G i r b w = (Ret (inl tt), b', w') /\
    contents G b' t (list_set xs (N.to_nat i) c) /\
    events w (EvClone t y c :: drops G t [old]) w' /\ w_live w' = w_live w.
Proof.
  intros V T P G [HG HC HQ] b r w t xs i old y c Hl Hc Hr Hi Hcl.
  destruct (live_vec_ref_rep P G HG HC HQ b r w t xs Hl Hc) as (d & l & rv & -> & HR & HO & Hrv).
  pose proof (rep_sized _ _ _ _ HR) as Hz.
  pose proof (ref_is_ok G r rv t y Hrv Hr (sized_not_unit G t HG Hz)) as Hok.
  assert (Li : i < lenN xs) by (eapply nthN_some; eassumption).
  unfold vd_clone_from_other, vd_with_mut. rewrite (vd_get_mut_rep P G HG t d _ xs i old HR Hi). cbn [vc_data vc_vtable].
  pose proof (vm_clone_from_ok G HQ _ t old r t y w (mut_elem (V := V) G t old Hz) Hok) as H.
  rewrite N.eqb_refl, Hcl in H. destruct H as (m & -> & Hm). do 2 eexists. csplit; [reflexivity| | |reflexivity].
  - rewrite Hm, (splice_one_with_vals G t d xs i c HR Li). apply rep_contents. eapply with_vals_rep; try eassumption.
    apply lenN_list_set.
  - apply set_tr_trace.
Qed.

(** ** C45: comparing values *)

Lemma c45_value_eq_fact :
  forall (V : Type) (T : FullTable V) (P : profile) (G : tenv), types_ok G ->
  forall (v v' : value V) w w' t x t' x',
  live_val P G v w -> value_is G v t x -> live_val P G v' w' -> value_is G v' t' x' ->
  (t <> t' -> vl_eq G v v' = Ret false) /\ (t = t' -> vl_eq G v v' = Ret (t_eq (G t) x x')).
Proof.
  intros V T P G [HG HC HQ] v v' w w' t x t' x' Hv Hi Hv' Hi'.
  destruct (live_val_rep P G HG HC HQ v w t x Hv Hi) as [HV _].
  destruct (live_val_rep P G HG HC HQ v' w' t' x' Hv' Hi') as [HV' _].
  rewrite (vl_eq_rep G v t x v' t' x' HV HV'). split.
  - intros Hne. apply N.eqb_neq in Hne. now rewrite Hne.
  - intros <-. now rewrite N.eqb_refl.
Qed.

Lemma c45_ref_eq_fact :
  forall (V : Type) (T : FullTable V) (P : profile) (G : tenv), types_ok G ->
  forall (r r' : vref V) w w' t x t' x',
  live_ref P G r w -> ref_is G r t x -> live_ref P G r' w' -> ref_is G r' t' x' ->
  (t <> t' -> vr_eq G r r' = Ret false) /\
  (t = t' -> t <> unit_id -> vr_eq G r r' = Ret (t_eq (G t) x x')).
Proof.
  intros V T P G [HG HC HQ] r r' w w' t x t' x' Hl Hi Hl' Hi'. split.
  - intros Hne. destruct Hi as [<- _], Hi' as [<- _]. unfold vr_eq.
    apply N.eqb_neq in Hne. now rewrite Hne.
  - intros <- Hu. destruct (live_ref_ok P G HG HC HQ r w Hl) as (rv & Hr & _).
    destruct (live_ref_ok P G HG HC HQ r' w' Hl') as (rv' & Hr' & _).
    pose proof (ref_is_ok G r rv t x Hr Hi Hu) as Hok. pose proof (ref_is_ok G r' rv' t x' Hr' Hi' Hu) as Hok'.
    remember (Some (t, x)) as tv eqn:Etv. remember (Some (t, x')) as tv' eqn:Etv'.
    destruct Hok as [t1 v1 Hbs Hty _ Hvt Hiv|]; [|discriminate].
    destruct Hok' as [t2 v2 Hbs' Hty' _ Hvt' Hiv'|]; [|discriminate].
    injection Etv as -> ->. injection Etv' as -> ->.
    unfold vr_eq. rewrite Hty, Hty', N.eqb_refl, Hvt, law_eq, Hbs, Hbs'. cbn [negb call_eq].
    rewrite !from_bytes_enc by assumption. reflexivity.
Qed.

(** ** C55: untyped indexing *)

Lemma c55_vec_get_partial_fact :
  forall (V : Type) (T : FullTable V) (P : profile) (G : tenv), types_ok G ->
  forall (b : vecdyn V) w t xs i,
  live_vec P G b w -> contents G b t xs -> fits P (i + 1) (t_size (G t)) ->
  match nthN xs i with
  | Some x => exists r, vd_get P i b = Ret r /\ ref_is G r t x /\ vt_as_ref (vr_vtable r) = vd_vtable b
  | None => exists p, vd_get P i b = Panic p
  end.
Proof.
  intros V T P G [HG HC HQ] b w t xs i Hb Hc Hf.
  destruct (live_vec_rep P G HG HC HQ b w t xs Hb Hc) as (d & l & -> & HR & _).
  pose proof (rep_sized _ _ _ _ HR) as Hz.
  destruct (nthN xs i) as [x|] eqn:Hx.
  - rewrite (vd_get_rep P G HG t d _ xs i x HR Hx). eexists. csplit; [reflexivity| |reflexivity].
    split; [reflexivity|]. rewrite (dref_downcast G t _ x t Hz). unfold typed. now rewrite N.eqb_refl.
  - destruct (vd_get_out P G HG t d (build_vtable (V := V) t) xs i HR Hx Hf) as (p & E & _). eauto.
Qed.

Lemma c55_vec_get_mut_partial_fact :
  forall (V : Type) (T : FullTable V) (P : profile) (G : tenv), types_ok G ->
  forall (b : vecdyn V) w t xs i,
  live_vec P G b w -> contents G b t xs -> fits P (i + 1) (t_size (G t)) ->
  match nthN xs i with
  | Some x => exists off m, vd_get_mut P i b = Ret (off, m) /\ vm_type_id m = t /\
                vm_downcast G t m = Ret (Some x) /\ vt_as_ref (vm_vtable m) = vd_vtable b /\
                off = i * t_size (G t)
  | None => exists p, vd_get_mut P i b = Panic p
  end.
Proof.
  intros V T P G [HG HC HQ] b w t xs i Hb Hc Hf.
  destruct (live_vec_rep P G HG HC HQ b w t xs Hb Hc) as (d & l & -> & HR & _).
  pose proof (rep_sized _ _ _ _ HR) as Hz.
  destruct (nthN xs i) as [x|] eqn:Hx.
  - rewrite (vd_get_mut_rep P G HG t d _ xs i x HR Hx). do 2 eexists.
    csplit; [reflexivity|reflexivity| |reflexivity|reflexivity].
    unfold vm_downcast. cbn [vm_type_id vm_bytes]. rewrite N.eqb_refl, from_bytes_enc; [reflexivity|].
    intros H0. contradiction.
  - destruct (vd_get_out P G HG t d (build_vtable (V := V) t) xs i HR Hx Hf) as (p & _ & E). eauto.
Qed.

(** ** C56: cloning into typed vectors *)

Lemma c56_clone_into_vec_fact :
  forall (V : Type) (T : FullTable V) (P : profile) (G : tenv), types_ok G ->
  forall (b : vecdyn V) w t xs cs tr,
  live_vec P G b w -> contents G b t xs ->
  clone_seq G t xs (w_trace w) = (cs, true, tr) ->
  exists vec w', vd_clone_into_vec G t b w = (Ret (Some vec), w') /\ vec_elems G t vec = Ret cs /\
                 w_trace w' = tr /\ allocated w (vec_block G t vec) w'.
Proof.
  intros V T P G [HG HC HQ] b w t xs cs tr Hb Hc Hs.
  destruct (live_vec_rep P G HG HC HQ b w t xs Hb Hc) as (d & l & -> & HR & HO).
  pose proof (rep_sized _ _ _ _ HR) as Hz.
  pose proof (clone_into_vec_q G HG HC HQ t d (build_vtable (V := V) t) xs w _ HR HO) as H. rewrite Hs in H.
  destruct H as [(bl & c & w' & E & _ & _ & _ & HO' & Ht)|(w' & _ & Hf & _)]; [|discriminate].
  do 2 eexists. csplit; [exact E| |exact Ht|].
  - unfold vec_elems. cbn [v_len v_bytes]. now apply read_vals_encs'.
  - exact (owns_allocated _ _ _ _ HO HO').
Qed.

(** A panicking clone: the clones made so far are dropped and the new vector is freed. *)
Lemma c56_clone_into_vec_panics_fact :
  forall (V : Type) (T : FullTable V) (P : profile) (G : tenv), types_ok G ->
  forall (b : vecdyn V) w t xs cs tr,
  live_vec P G b w -> contents G b t xs ->
  clone_seq G t xs (w_trace w) = (cs, false, tr) ->
  exists w', vd_clone_into_vec G t b w = (Panic PUser, w') /\ w_trace w' = tr ++ drops G t cs /\
             Permutation (w_live w) (w_live w').
Proof.
  intros V T P G [HG HC HQ] b w t xs cs tr Hb Hc Hs.
  destruct (live_vec_rep P G HG HC HQ b w t xs Hb Hc) as (d & l & -> & HR & HO).
  pose proof (clone_into_vec_q G HG HC HQ t d (build_vtable (V := V) t) xs w _ HR HO) as H. rewrite Hs in H.
  destruct H as [(bl & c & w' & _ & Hf & _)|(w' & E & _ & HO' & Ht)]; [discriminate|].
  exists w'. csplit; [exact E|exact Ht|]. destruct HO as [_ ->]. destruct HO' as [_ ->]. reflexivity.
Qed.

Lemma c56_clone_into_vec_other_type_fact :
  forall (V : Type) (T : FullTable V) (P : profile) (G : tenv), types_ok G ->
  forall (b : vecdyn V) w t xs t',
  live_vec P G b w -> contents G b t xs -> t' <> t ->
  vd_clone_into_vec G t' b w = (Ret None, w) /\
  forall vec, vd_append_cloned_to_vec G t' b vec w = (Ret false, vec, w).
Proof.
  intros V T P G [HG HC HQ] b w t xs t' Hb Hc Hne.
  destruct (live_vec_rep P G HG HC HQ b w t xs Hb Hc) as (d & l & -> & HR & HO).
  apply N.eqb_neq in Hne.
  assert (HA : forall vec, vd_append_cloned_to_vec G t' (VecCopy d (build_vtable (V := V) t)) vec w = (Ret false, vec, w)).
  { intros vec. unfold vd_append_cloned_to_vec. rewrite (as_slice_as_rep G t d _ xs t' HR). unfold typed. now rewrite Hne. }
  split; [|exact HA]. unfold vd_clone_into_vec, into_new_vec. rewrite HA.
  unfold vec_drop, vec_elems. cbn [v_len v_bytes svec_nil]. cbn [read_vals N.to_nat]. cbn [obind].
  destruct (t_size (G t') =? 0); reflexivity.
Qed.

Lemma c56_append_cloned_to_vec_fact :
  forall (V : Type) (T : FullTable V) (P : profile) (G : tenv), types_ok G ->
  forall (b : vecdyn V) w t xs,
  live_vec P G b w -> contents G b t xs ->
  forall cap ys vec w1 cs ok tr,
  vec_make G t cap ys w = (Ret vec, w1) ->
  N.max (N.max (v_cap vec * 2) (lenN ys + lenN xs)) (min_non_zero_cap (t_size (G t))) *
    t_size (G t) <= max_alloc (t_align (G t)) ->
  clone_seq G t xs (w_trace w) = (cs, ok, tr) ->
  exists vec' w2,
    vd_append_cloned_to_vec G t b vec w1 = (if ok then Ret true else Panic PUser, vec', w2) /\
    vec_elems G t vec' = Ret (ys ++ cs) /\ w_trace w2 = tr /\
    Permutation (vec_block G t vec ++ w_live w2) (vec_block G t vec' ++ w_live w1).
Proof.
  intros V T P G [HG HC HQ] b w t xs Hb Hc cap ys vec w1 cs ok tr Hm Hroom Hs.
  destruct (live_vec_rep P G HG HC HQ b w t xs Hb Hc) as (d & l & -> & HR & HO).
  pose proof (rep_sized _ _ _ _ HR) as Hz.
  destruct (vec_make_spec G t cap ys w _ Hz HO) as [(bl & w1' & HE & Hok & HO1 & Ht)|[HE _]]; [|congruence].
  rewrite HE in Hm. injection Hm as <- <-. cbn [v_cap] in Hroom.
  unfold vd_append_cloned_to_vec. rewrite (as_slice_as_rep G t d _ xs t HR). unfold typed. rewrite N.eqb_refl.
  unfold vd_len, vc_len. cbn [vc_data]. rewrite (rep_len _ _ _ _ HR).
  assert (Hgo : forall b1 c1 w2, svec_ok (t_size (G t)) (t_align (G t)) (SVec b1 (lenN ys) c1 (encs G t ys)) ->
     lenN ys + lenN xs <= c1 -> Owns w2 (owned b1 (c1 * t_size (G t)) (t_align (G t)) ++ vv_own d ++ l) ->
     w_trace w2 = w_trace w ->
     exists vec' w3, (let '(o, vec2, w2') := vec_extend_clones G t xs (SVec b1 (lenN ys) c1 (encs G t ys)) w2 in
        (let! _ := o in Ret true, vec2, w2')) = (if ok then Ret true else Panic PUser, vec', w3) /\
       vec_elems G t vec' = Ret (ys ++ cs) /\ w_trace w3 = tr /\
       Owns w3 (vec_block G t vec' ++ vv_own d ++ l)).
  { intros b1 c1 w2 Hok1 Hc1 HO2 Ht2. unfold vec_extend_clones.
    destruct (v_reserve_spec (t_size (G t)) (t_align (G t)) (lenN xs) _ w2 _ Hz Hok1 HO2)
      as [[_ ->]|[Hbad _]]; [|cbn [v_len v_cap] in Hbad; lia].
    rewrite <- Ht2 in Hs. rewrite (clone_vals_seq G t xs w2 cs ok tr Hs).
    do 2 eexists. split; [destruct ok; reflexivity|]. csplit.
    - unfold vec_elems. cbn [v_len v_bytes]. rewrite <- encs_app, <- lenN_app. now apply read_vals_encs'.
    - apply set_tr_trace.
    - apply Owns_set_tr. exact HO2. }
  assert (Hfin : forall vec' w3, Owns w3 (vec_block G t vec' ++ vv_own d ++ l) ->
    Permutation (owned bl (N.max cap (lenN ys) * t_size (G t)) (t_align (G t)) ++ w_live w3)
                (vec_block G t vec' ++ w_live w1')).
  { intros vec' w3 [_ HP3]. destruct HO1 as [_ HP1]. rewrite HP3, HP1. unfold v_own. cbn [v_blk v_cap].
    rewrite !app_assoc. apply Permutation_app_tail. apply Permutation_app_tail. apply Permutation_app_comm. }
  destruct (v_reserve_spec (t_size (G t)) (t_align (G t)) (lenN xs) _ w1' _ Hz Hok HO1)
    as [[Hle HE1]|[Hgt [(b1 & w2 & HE1 & Hm & _ & Hpt & HO2 & Ht1)|[HE1 Hcap]]]]; rewrite HE1.
  - destruct (Hgo _ _ _ Hok Hle HO1 Ht) as (vec' & w3 & E & Hv & Htr & HO3).
    exists vec', w3. csplit; [exact E|exact Hv|exact Htr|apply Hfin; exact HO3].
  - destruct (Hgo b1 (grow_cap (t_size (G t)) (lenN xs) (SVec bl (lenN ys) (N.max cap (lenN ys)) (encs G t ys))) w2) as (vec' & w3 & E & Hv & Htr & HO3).
    { split; cbn [v_blk v_len v_cap v_bytes]; [exact Hpt| |exact Hm].
      unfold grow_cap. cbn [v_cap v_len]. lia. }
    { unfold grow_cap. cbn [v_cap v_len]. lia. }
    { exact HO2. }
    { now rewrite Ht1. }
    exists vec', w3. csplit; [exact E|exact Hv|exact Htr|apply Hfin; exact HO3].
  - exfalso. unfold grow_cap in Hcap. cbn [v_len v_cap] in Hcap.
    pose proof isize_lt_usize. pose proof (max_alloc_le (t_align (G t))). destruct Hcap as [Hc'|Hc']; nia.
Qed.
