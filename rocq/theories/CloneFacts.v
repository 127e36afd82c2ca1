(** * CloneFacts: calls that write clones over elements, when a clone panics. *)

From Verif Require Import DynFacts6.

(** What was written before stays, and the given value is dropped. *)
Lemma c38_fill_clone_panics_fact :
  forall (V : Type) (T : FullTable V) (P : profile) (G : tenv), types_ok G ->
  forall (b : vecdyn V) w t xs x ys tr,
  live_vec P G b w -> contents G b t xs ->
  replace_seq G t (repeat x (List.length xs)) xs (w_trace w) = (ys, false, tr) ->
  exists b' w', vd_fill G t x b w = (Panic PUser, b', w') /\ contents G b' t ys /\
                vd_vtable b' = vd_vtable b /\ w_trace w' = tr ++ drops G t [x].
Proof.
  intros V T P G [HG HC HQ] b w t xs x ys tr Hb Hc Hs.
  destruct (live_vec_rep P G HG HC HQ b w t xs Hb Hc) as (d & l & -> & HR & HO).
  unfold vd_fill. rewrite (as_slice_as_rep G t d (build_vtable (V := V) t) xs t HR). unfold typed.
  rewrite N.eqb_refl, (fill_vals_seq G HQ t x xs w ys false tr Hs). cbn [obind owning].
  pose proof (replace_seq_len G t _ _ _ _ _ _ Hs) as Hl.
  rewrite (drop_val_q G HQ). cbn [obind unwind vc_data vc_vtable]. do 2 eexists. csplit; [reflexivity| |reflexivity|].
  - apply rep_contents. rewrite (splice_all_with_vals G t d xs ys HR) by now apply lenN_eq.
    apply (with_vals_rep G t d xs ys HR). now apply lenN_eq.
  - now rewrite !set_tr_trace.
Qed.

(** The target keeps its value, and nothing is dropped. *)
Lemma c43_clone_from_value_panics_fact :
  forall (V : Type) (T : FullTable V) (P : profile) (G : tenv), types_ok G ->
  forall (v : value V) (r : vref V) w t x y,
  live_val_ref P G v r w -> value_is G v t x -> ref_is G r t y -> t <> unit_id ->
  t_clone (G t) (w_trace w) y = None ->
  vm_clone_from_other G (vl_as_mut v) r w = (Panic PUser, vl_as_mut v, w).
Proof.
  intros V T P G [HG HC HQ] v r w t x y Hl Hi Hr Hu Hc.
  destruct (live_val_ref_rep P G HG HC HQ v r w t x Hl Hi) as (HV & Hw & rv & Hrv).
  pose proof (ref_is_ok G r rv t y Hrv Hr Hu) as Hok.
  pose proof (vm_clone_from_ok G HQ _ t x r t y w (mut_value G v t x HV) Hok) as H.
  rewrite N.eqb_refl, Hc in H. exact H.
Qed.

Lemma c43_clone_from_element_panics_fact :
  forall (V : Type) (T : FullTable V) (P : profile) (G : tenv), types_ok G ->
  forall (b : vecdyn V) (r : vref V) w t xs i old y,
  live_vec_ref P G b r w -> contents G b t xs -> ref_is G r t y -> nthN xs i = Some old ->
  t_clone (G t) (w_trace w) y = None ->
  exists b', vd_clone_from_other P G i r b w = (Panic PUser, b', w) /\ contents G b' t xs /\
             vd_vtable b' = vd_vtable b /\ vc_capacity b' = vc_capacity b.
Proof.
  intros V T P G [HG HC HQ] b r w t xs i old y Hl Hc Hr Hi Hcl.
  destruct (live_vec_ref_rep P G HG HC HQ b r w t xs Hl Hc) as (d & l & rv & -> & HR & HO & Hrv).
  pose proof (rep_sized _ _ _ _ HR) as Hz.
  pose proof (ref_is_ok G r rv t y Hrv Hr (sized_not_unit G t HG Hz)) as Hok.
  assert (Li : i < lenN xs) by (eapply nthN_some; eassumption).
  unfold vd_clone_from_other, vd_with_mut. rewrite (vd_get_mut_rep P G HG t d _ xs i old HR Hi). cbn [vc_data vc_vtable].
  pose proof (vm_clone_from_ok G HQ _ t old r t y w (mut_elem (V := V) G t old Hz) Hok) as H.
  rewrite N.eqb_refl, Hcl in H. rewrite H. cbn [vm_bytes]. eexists. csplit; [reflexivity| |reflexivity|].
  - rewrite (splice_one_with_vals G t d xs i old HR Li). apply rep_contents.
    rewrite (list_set_nthN _ _ _ Hi). eapply with_vals_rep; [exact HR|reflexivity].
  - unfold vc_capacity. cbn [vc_data]. rewrite (splice_one_with_vals G t d xs i old HR Li). reflexivity.
Qed.
