(** * ExtraFacts: unchecked accessors, and [Eq]. *)

From Verif Require Import DynReach ReachProofs DynRunProofs DynLemmas VecVoidProofs VecCopyProofs CopyFacts CopyFacts3 DynFacts DynFacts2 DynFacts4 Extra ValueProofs DynCallProofs.

Lemma get_unchecked_rep (V : Type) G t (d : vecvoid) (vt : V) xs i x :
  Rep G t d xs -> nthN xs i = Some x -> vc_get_unchecked G t i (VecCopy d vt) = Ret x.
Proof.
  intros H Hn. unfold vc_get_unchecked. cbn [vc_data].
  assert (E : i < lenN xs) by (now apply (nthN_some xs i x)).
  destruct (read_elem G _ _ _ _ H E) as (v & Hn' & Hb & HL). rewrite HL, Hb.
  rewrite read_val_enc by (apply is_value_sized; apply H). congruence.
Qed.

Lemma c75_unchecked_copy_fact :
  forall (V : Type) (P : profile) (G : tenv) (build : tyid -> V), wf_tenv G ->
  forall b w t xs i,
  live_buffer P G build b w -> shows G b t xs ->
  (forall x, nthN xs i = Some x ->
     vc_get_unchecked G t i b = Ret x /\
     forall v, exists b', vc_set_unchecked G t i v b = (Ret tt, b') /\
       shows G b' t (list_set xs (N.to_nat i) v) /\ vc_capacity b' = vc_capacity b) /\
  (lenN xs <= i -> vc_get_unchecked G t i b = UB UbOob /\ forall v, vc_set_unchecked G t i v b = (UB UbOob, b)).
Proof.
  intros V P G build HG b w t xs i Hb Hs.
  pose proof (c15_typed_indexing_fact V P G build HG b w t xs t i) as HC.
  pose proof Hs as [Hz _].
  live Hb Hs HR Hc l HO. split.
  - intros x Hn. pose proof (get_unchecked_rep V G t d vt xs i x HR Hn) as E. split; [exact E|].
    intros v. destruct (HC v Hb Hs) as (_ & b' & E1 & S1 & C1). rewrite N.eqb_refl in S1.
    assert (Hi : i < lenN xs) by (now apply (nthN_some xs i x)). apply N.ltb_lt in Hi. rewrite Hi, N.eqb_refl in E1.
    exists b'. split; [|auto]. unfold vc_set_unchecked. rewrite E.
    rewrite (set_as_rep G _ _ _ _ _ _ _ HR), Hi, N.eqb_refl in E1. injection E1 as <-.
    unfold vv_splice, with_vals. cbn [vc_vtable vc_data]. rewrite (rep_bytes _ _ _ _ HR).
    apply N.ltb_lt in Hi. now rewrite splice_encs_one.
  - intros Hi. assert (E : vc_get_unchecked G t i (VecCopy d vt) = UB UbOob).
    { unfold vc_get_unchecked. cbn [vc_data]. rewrite (rep_bytes _ _ _ _ HR), encs_length.
      replace (lenN xs * t_size (G t) <? (i + 1) * t_size (G t)) with true; [reflexivity|].
      symmetry. apply N.ltb_lt. nia. }
    split; [exact E|]. intros v. unfold vc_set_unchecked. now rewrite E.
Qed.

Lemma c75_unchecked_dyn_fact :
  forall (V : Type) (T : FullTable V) (P : profile) (G : tenv), types_ok G ->
  forall (b : vecdyn V) w t xs i x,
  live_vec P G b w -> contents G b t xs -> nthN xs i = Some x ->
  vd_get_unchecked G t i b = Ret x /\
  forall v, vd_set_unchecked G t i v b w =
    let '(o, b', w') := vd_set_as G t i v b w in (let! _ := o in Ret tt, b', w').
Proof.
  intros V T P G [HG HC HQ] b w t xs i x Hb Hc Hn.
  destruct (live_vec_rep P G HG HC HQ b w t xs Hb Hc) as (d & l & -> & HR & HO).
  pose proof (get_unchecked_rep V G t d (build_vtable t) xs i x HR Hn) as E. split; [exact E|].
  intros v. unfold vd_set_unchecked, vd_set_as. rewrite E, (get_as_rep G t d _ xs t i HR), Hn.
  unfold typed. rewrite N.eqb_refl. destruct (assign_val G t x w) as [[[]| | |] w']; reflexivity.
Qed.

(** A value of a type with a reflexive [==] equals itself. *)
Lemma c77_reflexive_partial_fact :
  forall (V : Type) (T : FullTable V) (P : profile) (G : tenv), types_ok G ->
  forall t, (forall x, t_eq (G t) x x = true) ->
  (forall (b : vecdyn V) w xs, live_vec P G b w -> contents G b t xs -> vd_eq P G b b = Ret true) /\
  (forall (v : value V) w x, live_val P G v w -> value_is G v t x -> vl_eq G v v = Ret true) /\
  (forall (r : vref V) w x, live_ref P G r w -> ref_is G r t x -> t <> unit_id -> vr_eq G r r = Ret true).
Proof.
  intros V T P G HT t Hr. split; [|split].
  - intros b w xs Hb Hc.
    destruct (c35_eq_partial_fact V T P G HT b b w w t xs t xs Hb Hc Hb Hc eq_refl) as (e & -> & He).
    f_equal. apply He. clear -Hr. induction xs; constructor; auto.
  - intros v w x Hv Hx. destruct (c45_value_eq_fact V T P G HT v v w w t x t x Hv Hx Hv Hx) as [_ H].
    now rewrite (H eq_refl), Hr.
  - intros r w x Hv Hx Ht. destruct (c45_ref_eq_fact V T P G HT r r w w t x t x Hv Hx Hv Hx) as [_ H].
    now rewrite (H eq_refl Ht), Hr.
Qed.

(** A vector or value that holds something that differs from itself, such as NaN, differs from
    itself. *)
Lemma c77_irreflexive_fact :
  forall (V : Type) (T : FullTable V) (P : profile) (G : tenv), types_ok G ->
  forall t x, t_eq (G t) x x = false ->
  (forall (b : vecdyn V) w xs, live_vec P G b w -> contents G b t xs -> In x xs -> vd_eq P G b b = Ret false) /\
  (forall (v : value V) w, live_val P G v w -> value_is G v t x -> vl_eq G v v = Ret false).
Proof.
  intros V T P G HT t x Hr. split.
  - intros b w xs Hb Hc Hx.
    destruct (c35_eq_partial_fact V T P G HT b b w w t xs t xs Hb Hc Hb Hc eq_refl) as (e & -> & He).
    f_equal. destruct e; [|reflexivity]. exfalso. pose proof (proj1 He eq_refl) as HF. clear He Hb Hc.
    induction xs as [|y xs IH]; [destruct Hx|]. inversion HF as [|? ? ? ? [_ Hy] HF']; subst.
    destruct Hx as [->|Hx]; [congruence|auto].
  - intros v w Hv Hx. destruct (c45_value_eq_fact V T P G HT v v w w t x t x Hv Hx Hv Hx) as [_ H].
    now rewrite (H eq_refl), Hr.
Qed.

(** A view for writing, of an owned value or of an element, clones what it shows. *)
Lemma c76_clone_through_mut_fact :
  forall (V : Type) (T : FullTable V) (P : profile) (G : tenv), types_ok G ->
  forall (m : vmut V) w t x,
  ((exists v, live_val P G v w /\ value_is G v t x /\ m = vl_as_mut v) \/
   (exists b xs i off, live_vec P G b w /\ contents G b t xs /\ nthN xs i = Some x /\
                       vd_get_mut P i b = Ret (off, m))) ->
  match t_clone (G t) (w_trace w) x with
  | Some c =>
      (exists v' w', vm_clone_value G m w = (Ret v', w') /\ value_is G v' t c /\
                     (exists b, vl_store v' = Boxed b) /\
                     events w [EvClone t x c] w' /\ allocated w (val_blocks v') w') /\
      (t_size (G t) = 8 ->
       exists v' w', vm_clone_small_value G m w = (Ret v', w') /\ value_is G v' t c /\
                     vl_store v' = Inline /\
                     events w [EvClone t x c] w' /\ allocated w (val_blocks v') w')
  | None => vm_clone_value G m w = (Panic PUser, w) /\
            (t_size (G t) = 8 -> vm_clone_small_value G m w = (Panic PUser, w))
  end.
Proof.
  intros V T P G [HG HC HQ] m w t x Hm.
  assert (H : vm_bytes m = enc G t x /\ vm_type_id m = t /\ vm_alignment m = t_align (G t) /\
              vt_as_ref (vm_vtable m) = build_vtable t /\ is_value G t x /\ exists l, Owns w l).
  { destruct Hm as [(v & Hl & Hv & ->)|(b & xs & i & off & Hb & Hc & Hn & E)].
    - destruct (live_val_rep P G HG HC HQ v w t x Hl Hv) as [HV [l HO]].
      unfold vl_as_mut. cbn [vm_bytes vm_type_id vm_alignment vm_vtable vt_as_ref].
      rewrite (vp_type _ _ _ _ HV), (vp_bytes _ _ _ _ HV), (vp_align _ _ _ _ HV), (vp_table _ _ _ _ HV).
      csplit; try reflexivity; [apply HV|eauto].
    - destruct (live_vec_rep P G HG HC HQ b w t xs Hb Hc) as (d & l & -> & HR & HO).
      rewrite (vd_get_mut_rep P G HG t d _ xs i x HR Hn) in E. injection E as _ <-.
      cbn [vm_bytes vm_type_id vm_alignment vm_vtable vt_as_ref].
      csplit; try reflexivity; [|eauto]. apply is_value_sized; apply HR. }
  destruct H as (Hbs & Hty & Hal & Hvt & Hiv & l & HO).
  unfold vm_clone_value, vm_clone_small_value. rewrite Hbs, Hty, Hal, Hvt.
  pose proof (clone_value_rep (V := V) G HC t x w _ Hiv HO) as HB.
  pose proof (clone_small_rep (V := V) G HC HQ t x w _ Hiv HO) as HS.
  destruct (t_clone (G t) (w_trace w) x) as [c|]; (split; [|intros H8]).
  - destruct HB as (v' & w' & E & HV' & Hb' & HO' & Ht). exists v', w'. unfold val_blocks. rewrite obj_blocks_own.
    csplit; [exact E|now apply vrep_is|exact Hb'|exact Ht|exact (owns_allocated _ _ _ _ HO HO')].
  - rewrite H8 in HS. change (8 =? 8) with true in HS. destruct HS as (v' & w' & E & HV' & Hb' & HO' & Ht). exists v', w'. unfold val_blocks. rewrite obj_blocks_own.
    csplit; [exact E|now apply vrep_is|exact Hb'|exact Ht|exact (owns_allocated _ _ _ _ HO HO')].
  - exact HB.
  - exact HS.
Qed.
