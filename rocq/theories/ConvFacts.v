(** * ConvFacts: further conversions between views (C67). *)

From Verif Require Import DynFacts6 DynLemmas SliceFacts.

(** [reborrow] of a slice shows the same slice, to every call that reads. *)
Lemma c67_slice_reborrow_fact :
  forall (V : Type) (P : profile) (G : tenv) (s : slicecopy V),
  let s' := sl_reborrow s in
  sl_len P s' = sl_len P s /\ sl_element_type_id s' = sl_element_type_id s /\
  meta_of_slice s' = meta_of_slice s /\
  (forall t, sl_as_slice P G t s' = sl_as_slice P G t s) /\
  (forall t i, sl_get_as P G t i s' = sl_get_as P G t i s) /\
  (forall i, sl_get P i s' = sl_get P i s) /\
  sl_iter s' = sl_iter s /\
  (forall r, sl_subslice P r s' = sl_subslice P r s) /\
  (forall k, sl_split_at P k s' = sl_split_at P k s) /\
  (forall k, sl_chunks_exact P k s' = sl_chunks_exact P k s) /\
  sl_into_raw_parts s' = sl_into_raw_parts s.
Proof. intros V P G [data elem vt]. unfold sl_reborrow. cbn [sl_data sl_elem sl_vtable]. csplit; reflexivity. Qed.

(** [From<&Value> for ValueRef] and [as_ref] give the same view. *)
Lemma c67_from_value_fact :
  forall (V : Type) (T : FullTable V) (G : tenv) (v : value V),
  same_view T G (vl_as_ref v) (vr_of_value v) /\
  forall t, vr_downcast G t (vr_of_value v) =
            if vl_type_id v =? t then let! x := from_bytes G t (vl_bytes v) in Ret (Some x) else Ret None.
Proof. intros V T G v. unfold same_view, vl_as_ref, vr_of_value. csplit; reflexivity. Qed.

(** A view made of a reference to a value shows that value, as its type only. *)
Lemma c67_new_views_fact :
  forall (V : Type) (T : FullTable V) (G : tenv) t x, is_value G t x ->
  ref_is G (vr_new (V := V) G t x) t x /\
  vm_type_id (vm_new (V := V) G t x) = t /\ vm_downcast G t (vm_new (V := V) G t x) = Ret (Some x) /\
  (forall t', t' <> t -> vr_downcast G t' (vr_new (V := V) G t x) = Ret None /\
                         vm_downcast G t' (vm_new (V := V) G t x) = Ret None) /\
  view_of_mut T G (vm_new G t x) (vr_new G t x).
Proof.
  intros V T G t x Hx. unfold ref_is, view_of_mut, vr_downcast, vm_downcast, vr_new, vm_new.
  cbn [vr_type_id vr_bytes vm_type_id vm_bytes]. rewrite N.eqb_refl, from_bytes_enc by assumption.
  csplit; try reflexivity. intros t' Hne. rewrite (proj2 (N.eqb_neq t t')) by congruence. auto.
Qed.
