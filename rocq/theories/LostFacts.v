(** * LostFacts: indexing a [VecDyn] that has lost its contents. *)

From Verif Require Import DynFacts6 DynPois.

(** With debug assertions an index out of range panics.  Without them, and without overflow checks,
    every index gives a reference that looks like one to a [()]; cloning behind it still panics,
    because the table is the one of the lost elements. *)
Lemma c55_lost_vec_get_fact :
  forall (V : Type) (T : FullTable V) (P : profile) (G : tenv), types_ok G ->
  forall (b : vecdyn V) w i,
  live_vec P G b w -> lost_vec G b ->
  (debug_assertions P = true -> vd_len b <= i -> vd_get P i b = Panic PDebugAssert) /\
  (P = release ->
   exists r, vd_get P i b = Ret r /\ ref_is G r unit_id 0%Z /\
             (exists p, vr_clone_value G r w = (Panic p, w)) /\
             (exists p, vr_clone_small_value G r w = (Panic p, w))).
Proof.
  intros V T P G [HG HC HQ] b w i Hb Hlost. pose proof Hb as (st & h & HR & Hg & Hw).
  destruct (dreachable_inv P G HG HC HQ st HR) as [leak HI].
  destruct (vec_cases G st leak h b HI Hg) as [(t & d & xs & -> & HRep)|(t & n & k & -> & Hz)].
  { exfalso. destruct Hlost as [_ Hl]. specialize (Hl t (rep_sized _ _ _ _ HRep)).
    pose proof (rep_contents G (build_vtable (V := V) t) t d xs HRep) as [_ Hc]. congruence. }
  split.
  - intros Hd Hi. unfold vd_get, debug_assert. rewrite Hd, (proj2 (N.ltb_ge _ _) Hi). reflexivity.
  - intros ->. unfold vd_get, vv_get_bytes, vv_byte_slice, index_byte_range, debug_assert.
    cbn [release debug_assertions obind vc_data pois_vec vv_len vv_elem vv_bytes num_bytes].
    assert (H0 : forall m, umul release m (num_bytes (ElemInfo unit_id 0 1)) = Ret 0).
    { intros m. unfold umul. change (num_bytes (ElemInfo unit_id 0 1)) with 0. now rewrite N.mul_0_r. }
    rewrite !H0. cbn [obind]. change (lenN (@nil mbyte) <? 0) with false. cbn [obind].
    assert (Hu : exists m, uadd release i 1 = Ret m).
    { unfold uadd. destruct (_ <=? _); eexists; reflexivity. }
    destruct Hu as [m ->]. cbn [obind]. rewrite H0. cbn [obind fst snd].
    change (firstnN 0 (@nil mbyte)) with (@nil mbyte).
    change (index_range (@nil mbyte) 0 0) with (Ret (@nil mbyte)). cbn [obind].
    assert (Hf : from_bytes G t [] = Panic PAssert).
    { unfold from_bytes. change (lenN (@nil mbyte)) with 0.
      rewrite (proj2 (N.eqb_neq _ _)) by (intros E; now apply Hz). reflexivity. }
    eexists. csplit; [reflexivity|split; [reflexivity|]| |].
    + unfold vr_downcast.
      cbn [vr_type_id vr_bytes vc_element_type_id vc_data vv_elem pois_vec e_type_id].
      rewrite N.eqb_refl, (from_bytes_unit G HG). reflexivity.
    + exists PAssert. unfold vr_clone_value, clone_value_of, call_clone.
      cbn [vr_vtable vt_as_ref vr_bytes vc_vtable]. rewrite law_clone, Hf. reflexivity.
    + exists PAssert. unfold vr_clone_small_value, clone_small_of, call_clone_into_raw.
      cbn [vr_vtable vt_as_ref vr_bytes vc_vtable]. rewrite law_clone_raw, Hf. reflexivity.
Qed.
