(** * DynTableFacts: what [into_dyn!] and [from_dyn!] do to vectors and slices. *)

From Verif Require Import DynReach ReachProofs DynRunProofs DynLemmas VecVoidProofs DynFacts DynFacts5 DynTable.
From Coq Require Import Eqdep_dec.

Lemma dyn_downcast_same (Tab : tyid -> Type) k v : dyn_downcast Tab k (to_dyn Tab k v) = Some v.
Proof.
  unfold dyn_downcast, to_dyn. cbn. destruct (N.eq_dec k k) as [e|e]; [|now destruct e].
  f_equal. symmetry. apply (eq_rect_eq_dec N.eq_dec).
Qed.
Lemma dyn_downcast_other (Tab : tyid -> Type) k j v : j <> k -> dyn_downcast Tab j (to_dyn Tab k v) = None.
Proof.
  intros Hne. unfold dyn_downcast, to_dyn. cbn. destruct (N.eq_dec k j) as [e|e]; [congruence|reflexivity].
Qed.

Lemma c73_round_trip_fact :
  forall (Tab : tyid -> Type) (P : profile) k,
  (forall (b : vecdyn (Tab k)) w, vd_from_dyn Tab P k (vd_into_dyn Tab b) w = (Ret b, w)) /\
  (forall (b : veccopy (Tab k)) w, vc_from_dyn Tab P k (vc_into_dyn Tab b) w = (Ret b, w)).
Proof.
  intros Tab P k. split; intros [d v] w; unfold vd_from_dyn, vc_from_dyn, vd_into_raw_parts, vc_into_raw_parts,
    from_dyn_table; cbn [vd_into_dyn vc_into_dyn vd_into_raw_parts vc_into_raw_parts vd_from_raw_parts
    vc_from_raw_parts vc_data vc_vtable]; rewrite dyn_downcast_same; reflexivity.
Qed.

Lemma c73_same_behaviour_fact :
  forall (Tab : tyid -> Type) (P : profile) (G : tenv) k (b : vecdyn (Tab k)),
  (forall t xs, contents G b t xs <-> contents G (vd_into_dyn Tab b) t xs) /\
  (forall D : (forall j, HasDrop (Tab j)),
     (forall w, vd_drop P G (vd_into_dyn Tab b) w = vd_drop P G b w) /\
     (forall w, vd_clear P G (vd_into_dyn Tab b) w =
        let '(o, b', w') := vd_clear P G b w in (o, vd_into_dyn Tab b', w'))) /\
  (forall C : (forall j, HasClone (Tab j)),
     forall w, vd_clone P G (vd_into_dyn Tab b) w =
        let '(o, w') := vd_clone P G b w in (let! b' := o in Ret (vd_into_dyn Tab b'), w')) /\
  (forall H : (forall j, HasHash (Tab j)), vd_hash P G (vd_into_dyn Tab b) = vd_hash P G b) /\
  (forall F : (forall j, HasDebug (Tab j)), vd_fmt P G (vd_into_dyn Tab b) = vd_fmt P G b) /\
  (forall E : (forall j, HasPartialEq (Tab j)) , forall b' : vecdyn (Tab k),
     vd_eq P G (vd_into_dyn Tab b) (vd_into_dyn Tab b') = vd_eq P G b b').
Proof.
  intros Tab P G k b.
  pose proof (c25_vecdyn_upcast_fact (Tab k) (dyn_table Tab) (to_dyn Tab k) P G b) as (H1 & _ & H2 & H3 & H4 & H5 & H6).
  assert (Hi : forall x : vecdyn (Tab k), vd_into_dyn Tab x = vd_upcast (to_dyn Tab k) x) by reflexivity.
  split; [exact H1|]. split.
  { intros D. specialize (H2 (D k) (@dyn_drop Tab D) eq_refl). destruct H2 as [A B].
    split; [exact A|]. intros w. rewrite Hi, B. unfold upcast_self.
    destruct (vd_clear P G b w) as [[o b'] w']. reflexivity. }
  split.
  { intros C w. specialize (H3 (C k) (@dyn_clone Tab C) eq_refl). destruct H3 as [A _].
    rewrite Hi, A. unfold upcast_result. destruct (vd_clone P G b w) as [o w']. reflexivity. }
  split; [intros H; exact (H4 (H k) (@dyn_hash Tab H) eq_refl)|].
  split; [intros F; exact (H5 (F k) (@dyn_debug Tab F) eq_refl)|].
  intros E b'. exact (H6 (E k) (@dyn_eq Tab E) eq_refl b').
Qed.

Lemma c73_slice_fact :
  forall (Tab : tyid -> Type) (P : profile) (G : tenv) k (s : slicecopy (Tab k)) t i,
  sl_as_slice P G t (sl_into_dyn Tab s) = sl_as_slice P G t s /\
  sl_len P (sl_into_dyn Tab s) = sl_len P s /\
  sl_get_as P G t i (sl_into_dyn Tab s) = sl_get_as P G t i s /\
  sl_element_type_id (sl_into_dyn Tab s) = sl_element_type_id s.
Proof. intros. repeat split; reflexivity. Qed.

(** With another table type the call panics: the memory is freed and no element is dropped. *)
Lemma c73_other_table_fact :
  forall (Tab : tyid -> Type) (P : profile) (G : tenv) k (T : FullTable (Tab k)), types_ok G ->
  forall (b : vecdyn (Tab k)) w t xs j,
  live_vec P G b w -> contents G b t xs -> j <> k ->
  exists w', vd_from_dyn Tab P j (vd_into_dyn Tab b) w = (Panic PAssert, w') /\
             events w [] w' /\ freed w (buf_block b) w'.
Proof.
  intros Tab P G k T [HG HC HQ] b w t xs j Hb Hc Hne.
  destruct (live_vec_rep P G HG HC HQ b w t xs Hb Hc) as (d & l & -> & HR & HO).
  destruct (vv_drop_rep P G HG t d xs w l HR HO) as (w' & E & HO' & Ht).
  exists w'. unfold vd_from_dyn, vd_into_raw_parts, from_dyn_table.
  cbn [vd_into_dyn vd_into_raw_parts vd_from_raw_parts vc_data vc_vtable].
  rewrite dyn_downcast_other by exact Hne. rewrite E. cbn [unwind obind].
  csplit; [reflexivity|unfold events; now rewrite app_nil_r|].
  rewrite buf_block_own. cbn [vc_data]. exact (owns_freed w w' _ l HO HO').
Qed.

Lemma c73_copy_other_table_fact :
  forall (Tab : tyid -> Type) (P : profile) (G : tenv) k (build : tyid -> Tab k), wf_tenv G ->
  forall (b : veccopy (Tab k)) w t xs j,
  live_buffer P G build b w -> shows G b t xs -> j <> k ->
  exists w', vc_from_dyn Tab P j (vc_into_dyn Tab b) w = (Panic PAssert, w') /\
             events w [] w' /\ freed w (buf_block b) w'.
Proof.
  intros Tab P G k build HG b w t xs j Hb Hc Hne.
  destruct (live_rep P G HG build b w t xs Hb Hc) as (HR & _ & l & HO).
  destruct (vv_drop_rep P G HG t _ xs w l HR HO) as (w' & E & HO' & Ht).
  exists w'. unfold vc_from_dyn, vc_into_raw_parts, from_dyn_table. destruct b as [d v].
  cbn [vc_into_dyn vc_into_raw_parts vc_from_raw_parts vc_data vc_vtable] in *.
  rewrite dyn_downcast_other by exact Hne. rewrite E. cbn [unwind obind].
  csplit; [reflexivity|unfold events; now rewrite app_nil_r|].
  rewrite buf_block_own. cbn [vc_data]. exact (owns_freed w w' _ l HO HO').
Qed.
