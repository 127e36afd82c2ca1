(** * DynFacts6: vectors typed like something else, boxes whose destructor panics, lent views. *)

From Verif Require Export DynFacts5.
From Verif Require Import CopyFacts2 SliceFacts UpcastFacts.
From Verif Require Import DynReach.

(** ** C20 *)

Lemma taken_meta (V : Type) (T : FullTable V) (P : profile) (G : tenv) t (m : meta V) :
  types_ok G -> t_size (G t) <> 0 -> taken_from T P G t m ->
  m = Meta (elem_new G t) (build_vtable (V := V) t).
Proof.
  intros [HG HC HQ] Hz [(b & wb & xs & Hb & Hs & ->)|[(r & w1 & x & Hl & Hi & ->)|[(v & w1 & x & Hl & Hi & Hm)|(xs & ->)]]].
  - destruct (live_vec_rep P G HG HC HQ b wb t xs Hb Hs) as (d & l & -> & HR & _).
    unfold meta_of_vecdyn, meta_of_vec. cbn [vc_data vc_vtable]. now rewrite (rep_elem _ _ _ _ HR).
  - destruct (live_ref_ok P G HG HC HQ r w1 Hl) as (rv & Hr & _).
    apply (meta_ref_ok G r t x). apply (ref_is_ok G r rv t x Hr Hi (sized_not_unit G t HG Hz)).
  - destruct (live_val_rep P G HG HC HQ v w1 t x Hl Hi) as [HV _].
    destruct Hm as [-> | ->]; unfold meta_of_vref, meta_of_vmut, vl_as_ref, vl_as_mut;
      cbn [vr_type_id vr_bytes vr_alignment vr_vtable vm_type_id vm_bytes vm_alignment vm_vtable vt_take];
      rewrite (vp_type _ _ _ _ HV), (vp_bytes _ _ _ _ HV), (vp_align _ _ _ _ HV), (vp_table _ _ _ _ HV), enc_length;
      reflexivity.
  - reflexivity.
Qed.

Lemma c20_vecdyn_with_type_from_fact :
  forall (V : Type) (T : FullTable V) (P : profile) (G : tenv), types_ok G ->
  forall t w (m : meta V), wf_world w -> t_size (G t) <> 0 -> taken_from T P G t m ->
  exists (b : vecdyn V) w',
    vd_with_type_from P m w = (Ret b, w') /\ contents G b t [] /\ vd_len b = 0 /\
    vd_element_type_id b = t /\ vd_vtable b = build_vtable (V := V) t /\ events w [] w'.
Proof.
  intros V T P G Hok t w m Hw Hz Hm. rewrite (taken_meta V T P G t m Hok Hz Hm).
  destruct Hok as [HG HC HQ]. unfold vd_with_type_from.
  destruct (vc_with_type_from_rep P G HG t (build_vtable (V := V) t) w (w_live w) Hz ltac:(now split)) as (d & w' & HE & HR & _ & _ & Htr).
  exists (VecCopy d (build_vtable (V := V) t)), w'. csplit; try reflexivity.
  - exact HE.
  - now apply (rep_contents G HG).
  - exact (rep_len _ _ _ _ HR).
  - unfold vd_element_type_id, vc_element_type_id. cbn [vc_data]. now rewrite (rep_elem _ _ _ _ HR).
  - unfold events. now rewrite app_nil_r.
Qed.

(** ** C40: also when the destructor panics, the box of a downcast value is freed *)

Lemma c40_box_freed_fact :
  forall (V : Type) (T : FullTable V) (G : tenv), wf_tenv G ->
  forall t x w, wf_world w -> is_value G t x ->
  exists v w1 bx w2 w3,
    bv_new (V := V) G t x w = (v, w1) /\ bv_downcast G t v w1 = (Ret (Some bx), w2) /\ tb_val bx = x /\
    tbox_drop G t bx w2 =
      (if negb (t_copy (G t)) && t_drop_panics (G t) (w_trace w) x then Panic PUser else Ret tt, w3) /\
    events w (drops G t [x]) w3 /\ Permutation (w_live w) (w_live w3).
Proof.
  intros V T G HG t x w Hw Hx.
  destruct (bv_new_rep (V := V) G t x w (w_live w) Hx ltac:(now split)) as (v & w1 & E1 & HV & [b Hb] & HO1 & Ht1).
  destruct (bv_downcast_rep G v t x b t w1 _ HV Hb HO1) as (w2 & E2 & HO2 & Ht2).
  rewrite N.eqb_refl in E2. pose proof (vp_store _ _ _ _ HV) as Hp. rewrite Hb in Hp.
  exists v, w1, (TBoxed b x), w2. unfold tbox_drop, drop_val, drops, events. cbn [tb_val tb_blk map].
  rewrite Ht2, Ht1. destruct (t_copy (G t)) eqn:Ec; cbn [negb andb].
  - destruct (dealloc_owns b (t_size (G t)) (t_align (G t)) w2 (w_live w) Hp HO2) as (w3 & -> & HO3 & Ht3).
    exists w3. csplit; auto.
    + rewrite Ht3, Ht2, Ht1. now rewrite ?app_nil_r.
    + symmetry. exact (proj2 HO3).
  - assert (HO2' : Owns (emit (EvDrop t x) w2) (owned b (t_size (G t)) (t_align (G t)) ++ w_live w)) by now apply Owns_emit.
    destruct (dealloc_owns b (t_size (G t)) (t_align (G t)) _ (w_live w) Hp HO2') as (w3 & E3 & HO3 & Ht3).
    exists w3. csplit; auto.
    + destruct (t_drop_panics (G t) (w_trace w) x); rewrite E3; reflexivity.
    + rewrite Ht3. cbn [emit w_trace]. now rewrite Ht2, Ht1.
    + symmetry. exact (proj2 HO3).
Qed.

(** ** C67: lent and converted views show the same *)

Lemma c67_reborrow_fact :
  forall (V : Type) (T : FullTable V) (G : tenv) (r : vref V) (m : vmut V),
  same_view T G r (vr_reborrow r) /\ same_mut T G m (vm_reborrow_mut m) /\
  view_of_mut T G m (vm_reborrow m) /\ view_of_mut T G m (vr_of_vm m).
Proof.
  intros V T G [rb rt ra rv] [mb mt ma mv].
  unfold same_view, same_mut, view_of_mut, vr_reborrow, vm_reborrow_mut, vm_reborrow, vr_of_vm.
  cbn [vr_type_id vr_bytes vr_alignment vr_vtable vm_type_id vm_bytes vm_alignment vm_vtable].
  csplit; intros; try reflexivity.
  - unfold same_after, vm_assign, vm_swap. cbn [vm_type_id vm_bytes].
    repeat (match goal with |- context [if ?c then _ else _] => destruct c end);
      cbn [vm_type_id vm_bytes vm_with_bytes];
      repeat (match goal with |- context [vl_drop ?a ?b ?c] => destruct (vl_drop a b c) end); auto.
  - unfold same_after, vm_clone_from_other. cbn [vm_type_id vm_bytes vm_vtable].
    replace (vt_as_ref (VRef (vt_as_ref mv))) with (vt_as_ref mv) by reflexivity.
    destruct (mt =? vr_type_id r); [|auto].
    destruct (call_clone_from _ _ _ _ _) as [[o bs] w']. cbn [vm_with_bytes vm_bytes vm_type_id]. auto.
  - unfold same_after, vm_downcast_assign. cbn [vm_type_id vm_bytes vm_vtable].
    destruct (mt =? t).
    + destruct (from_bytes G t mb); [destruct (assign_val G t a w)| | |]; cbn [vm_with_bytes vm_bytes vm_type_id]; auto.
    + destruct (drop_val G t x w). auto.
  - unfold vm_swap. cbn [vm_type_id vm_bytes].
    repeat (match goal with |- context [if ?c then _ else _] => destruct c end); cbn [vm_bytes vm_with_bytes]; auto.
Qed.

(** A copyable view turned into a general one shows the same at every type, sizes new vectors alike,
    keeps the table, and runs nothing when it is told to drop. *)
Lemma c67_copy_views_fact :
  forall (V : Type) (G : tenv) (r : copy_ref V) (m : copy_mut V),
  (vr_type_id (vr_of_cr r) = cr_type_id r /\
   (forall t, vr_downcast G t (vr_of_cr r) = cr_downcast G t r) /\
   m_elem (meta_of_vref (vr_of_cr r)) = m_elem (meta_of_copy_ref r) /\
   snd (vt_as_ref (vr_vtable (vr_of_cr r))) = cr_vtable r /\
   forall bs w, call_drop G (fst (vt_as_ref (vr_vtable (vr_of_cr r)))) bs w = (Ret tt, w)) /\
  (vm_type_id (vm_of_cm m) = cm_type_id m /\
   vm_bytes (vm_of_cm m) = cm_bytes m /\
   m_elem (meta_of_vmut (vm_of_cm m)) =
     ElemInfo (cm_type_id m) (lenN (cm_bytes m) / cm_alignment m) (cm_alignment m) /\
   snd (vt_as_ref (vm_vtable (vm_of_cm m))) = cm_vtable m /\
   forall bs w, call_drop G (fst (vt_as_ref (vm_vtable (vm_of_cm m)))) bs w = (Ret tt, w)).
Proof. intros V G [] []. csplit; reflexivity. Qed.

(** ** C57: copyable buffers of programs that only use copyable sources *)

Lemma c57_copy_only_partial_fact :
  forall (V : Type) (P : profile) (G : tenv) (build : tyid -> V), wf_tenv G ->
  forall b w, live_buffer P G build b w ->
  t_copy (G (vc_element_type_id b)) = true /\
  (forall t, t_copy (G t) = false -> vc_check t b = false /\
     forall x, exists w', vc_push_as P G t x b w = (if t_drop_panics (G t) (w_trace w) x then Panic PUser else Ret false, b, w')).
Proof.
  intros V P G build HG b w (st & h & HR & Hg & ->).
  destruct (reachable_inv P G HG build st HR) as [leak [HS _]].
  apply get_some in Hg. pose proof (proj1 (Forall_forall _ _) HS _ (nth_error_In _ _ Hg)) as Hb. cbn [slot_ok] in Hb.
  assert (Hc : t_copy (G (vc_element_type_id b)) = true).
  { unfold vc_element_type_id. destruct Hb as [(t & xs & HRep & Hc)|Hp].
    - now rewrite (rep_elem _ _ _ _ HRep).
    - rewrite (po_elem _ Hp). apply (wf_unit_copy G HG). }
  split; [exact Hc|]. intros t Ht.
  assert (Hk : vc_check t b = false).
  { unfold vc_check. apply N.eqb_neq. intros E. rewrite <- E in Hc. congruence. }
  split; [exact Hk|]. intros x. unfold vc_push_as. rewrite Hk. unfold drop_val. rewrite Ht.
  eexists. destruct (t_drop_panics _ _ _); reflexivity.
Qed.

(** ** C58: type information taken from one source, or mixed from two *)

Lemma c58_one_source_partial_fact :
  forall (V : Type) (T : FullTable V) (P : profile) (G : tenv), types_ok G ->
  forall t (m : meta V), t_size (G t) <> 0 -> taken_from T P G t m ->
  e_type_id (m_elem m) = t /\ num_bytes (m_elem m) = t_size (G t) /\
  e_alignment (m_elem m) = t_align (G t) /\ m_vtable m = build_vtable (V := V) t.
Proof.
  intros V T P G Hok t m Hz Hm. rewrite (taken_meta V T P G t m Hok Hz Hm).
  destruct Hok as [HG HC HQ]. csplit; try reflexivity.
  exact (num_bytes_new G t HG).
Qed.

(** [Meta { elem: m.elem, vtable: m'.vtable }], which safe code may write: whatever the two types
    are, pushing an element and dropping the vector reads the element at the other type. *)
Lemma c58_mixed_meta_fact :
  forall (V : Type) (T : FullTable V) (P : profile) (G : tenv), types_ok G ->
  forall t t' x w (m m' : meta V), wf_world w -> t_size (G t) <> 0 -> t_size (G t') <> 0 -> t <> t' ->
  taken_from T P G t m -> taken_from T P G t' m' ->
  exists (b : vecdyn V) w1 b1 w2,
    vd_with_type_from P (Meta (m_elem m) (m_vtable m')) w = (Ret b, w1) /\
    vd_push_as P G t x b w1 = (Ret true, b1, w2) /\ contents G b1 t [x] /\
    vd_drop P G b1 w2 = (if t_size (G t) =? t_size (G t') then UB UbValue else Panic PAssert, w2).
Proof.
  intros V T P G Hok t t' x w m m' Hw Hz Hz' Hne Hm Hm'.
  rewrite (taken_meta V T P G t m Hok Hz Hm), (taken_meta V T P G t' m' Hok Hz' Hm').
  destruct Hok as [HG HC HQ]. cbn [m_elem m_vtable]. unfold vd_with_type_from.
  destruct (vc_with_type_from_rep P G HG t (build_vtable (V := V) t') w (w_live w) Hz ltac:(now split)) as (d & w' & HE & HR & Hcap & HO & Htr).
  pose proof (push_as_rep P G HG t d [] x w' _ HR HO) as HP.
  exists (VecCopy d (build_vtable (V := V) t')), w'.
  unfold vd_push_as, vc_push_as. rewrite (vc_check_rep G t d _ _ t HR), N.eqb_refl. unfold on_data. cbn [vc_data].
  fold (push_closure G t x).
  inversion HP as [d' w2 HR' HO' Ht' Hc' Hk Heq|o w2 Hc0 _ _ Heq].
  2:{ rewrite Hcap in Hc0. discriminate. }
  destruct (apply_unchecked P G t (push_closure G t x) d w') as [[o0 d0] w0'] eqn:EA. injection Heq as <- <- <-.
  exists (VecCopy d' (build_vtable (V := V) t')), w2. csplit.
  - exact HE.
  - reflexivity.
  - now apply (rep_contents G HG).
  - unfold vd_drop. cbn [vc_data vc_vtable]. rewrite (byte_chunks_mut_rep P G HG t d' _ HR'), law_drop.
    cbn [app map drop_chunks call_drop]. unfold from_bytes. rewrite enc_length.
    destruct (t_size (G t) =? t_size (G t')) eqn:Es; [|reflexivity].
    apply N.eqb_eq in Es. cbn [assert_ obind]. unfold read_val. now rewrite (dec_other_type G t' t x) by congruence.
Qed.
