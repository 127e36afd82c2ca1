(** * WrapDynFacts: huge positions in a [VecDyn], in builds without checks (C83) *)

From Verif Require Export WrapFacts.
From Verif Require Import CopyFacts2 UpcastFacts.
From Verif Require Export DynPanicFacts.

Lemma rep_slice_ok G t d xs : Rep G t d xs -> slice_ok G t xs.
Proof.
  intros HR. pose proof (rep_sized _ _ _ _ HR). pose proof (rep_cap _ _ _ _ HR).
  pose proof (rep_max _ _ _ _ HR). pose proof (max_alloc_le (t_align (G t))). split; [assumption|]. nia.
Qed.

(** The bytes of a position, as found by slices and by vectors. *)
Definition bytes_at (P : profile) (G : tenv) (t : tyid) (xs : list payload) (i : N) : outcome (N * list mbyte) :=
  let! r := index_byte_range P (t_size (G t)) i in
  let! bs := index_range (encs G t xs) (fst r) (snd r) in Ret (fst r, bs).

Lemma slice_bytes_at {V} P G t xs (vt : V) i : wf_tenv G -> unchecked P -> slice_ok G t xs ->
  slm_get_mut P i (sl_from_slice G t xs vt) =
  let! r := bytes_at P G t xs i in Ret (fst r, CopyMut (snd r) t (t_align (G t)) vt).
Proof.
  intros HG [H1 H2] Hok. pose proof (slice_srep G t xs vt Hok) as HS.
  unfold slm_get_mut, sl_bounds_debug, bytes_at. rewrite H1, (srep_size G HG t _ xs HS).
  rewrite (srep_data _ _ _ _ HS). cbn [obind].
  destruct (index_byte_range P (t_size (G t)) i) as [r| | |]; cbn [obind]; try reflexivity.
  destruct (index_range (encs G t xs) (fst r) (snd r)); cbn [obind]; reflexivity.
Qed.

Lemma vec_bytes_at P G t d xs i : wf_tenv G -> unchecked P -> Rep G t d xs ->
  vv_get_bytes P i d = (let! r := bytes_at P G t xs i in Ret (snd r)) /\
  vv_get_bytes_mut P i d = bytes_at P G t xs i.
Proof.
  intros HG [H1 H2] HR. unfold vv_get_bytes, vv_get_bytes_mut, debug_assert, bytes_at.
  rewrite H1, (byte_slice_rep P G HG t d xs HR), (rep_num_bytes G HG t d xs HR). cbn [obind].
  destruct (index_byte_range P (t_size (G t)) i) as [r| | |]; cbn [obind]; try now split.
  destruct (index_range (encs G t xs) (fst r) (snd r)); cbn [obind]; now split.
Qed.

Lemma bytes_at_wrapped P G t xs m i :
  wf_tenv G -> unchecked P -> slice_ok G t xs -> m * t_size (G t) = 2 ^ 64 ->
  bytes_at P G t xs i = match nthN xs (i mod m) with
                        | Some v => Ret ((i mod m) * t_size (G t), enc G t v) | None => Panic PIndex end.
Proof.
  intros HG HP Hok Hm. destruct (get_wrapped P G HG t xs tt m HP Hok Hm i) as [_ E].
  rewrite (slice_bytes_at P G t xs tt i HG HP Hok) in E.
  destruct (bytes_at P G t xs i) as [[off bs]| | |]; cbn [obind fst snd] in E;
    destruct (nthN xs (i mod m)); try discriminate; [|injection E as ->; reflexivity].
  unfold elem_mut in E. injection E as -> ->. reflexivity.
Qed.

Lemma bytes_at_torn P G t xs :
  wf_tenv G -> unchecked P -> slice_ok G t xs -> 2 <= lenN xs -> ~ (exists m, m * t_size (G t) = 2 ^ 64) ->
  exists k off bs, k <= usize_max /\ bytes_at P G t xs k = Ret (off, bs) /\ from_bytes G t bs = UB UbValue.
Proof.
  intros HG HP Hok Hl Hn.
  destruct (c83_torn_refuted_fact unit P G HG HP t xs tt Hok Hl Hn) as (k & _ & off & r & _ & Hk & _ & _ & E & HU & _).
  rewrite (slice_bytes_at P G t xs tt k HG HP Hok) in E.
  destruct (bytes_at P G t xs k) as [[off' bs]| | |] eqn:EB; cbn [obind fst snd] in E; try discriminate.
  injection E as -> <-. exists k, off, bs. csplit; [exact Hk|exact EB|].
  unfold cm_downcast in HU. cbn [cm_type_id cm_bytes] in HU. rewrite N.eqb_refl in HU.
  destruct (from_bytes G t bs); cbn [obind] in HU; try discriminate. now injection HU as ->.
Qed.

Lemma c83_vec_any_build_fact :
  forall (V : Type) (T : FullTable V) (P : profile) (G : tenv), types_ok G ->
  forall (b : vecdyn V) w t xs, live_vec P G b w -> contents G b t xs ->
  forall i, panics_or (vd_get P i b) (vd_get release i b) /\
            panics_or (vd_get_mut P i b) (vd_get_mut release i b).
Proof.
  intros V T P G [HG HC HQ] b w t xs Hb Hc i.
  destruct (live_vec_rep P G HG HC HQ b w t xs Hb Hc) as (d & l & -> & HR & _).
  unfold vd_get, vd_get_mut, vv_get_bytes, vv_get_bytes_mut, vd_len, vc_len. cbn [vc_data vc_vtable].
  rewrite (byte_slice_rep P G HG t d xs HR), (byte_slice_rep release G HG t d xs HR).
  assert (HD : forall c, debug_assert P c = Panic PDebugAssert \/ debug_assert P c = Ret tt).
  { intros c. unfold debug_assert. destruct (debug_assertions P), c; auto. }
  assert (HD' : forall c, debug_assert release c = Ret tt) by reflexivity. rewrite !HD'.
  destruct (HD (i <? vv_len d)) as [->| ->]; cbn [obind]; [split; left; exact I|].
  destruct (index_byte_range_release P (num_bytes (vv_elem d)) i) as [->| ->];
    [split; left; exact I|split; now right].
Qed.

Lemma c83_vec_release_partial_fact :
  forall (V : Type) (T : FullTable V) (P : profile) (G : tenv), types_ok G -> unchecked P ->
  forall (b : vecdyn V) w t xs m, live_vec P G b w -> contents G b t xs -> m * t_size (G t) = 2 ^ 64 ->
  forall i,
  match nthN xs (i mod m) with
  | Some x => exists r off r', vd_get P i b = Ret r /\ ref_is G r t x /\
                vd_get_mut P i b = Ret (off, r') /\ vm_type_id r' = t /\ vm_downcast G t r' = Ret (Some x) /\
                off = (i mod m) * t_size (G t)
  | None => is_panic (vd_get P i b) /\ is_panic (vd_get_mut P i b)
  end.
Proof.
  intros V T P G [HG HC HQ] HP b w t xs m Hb Hc Hm i.
  destruct (live_vec_rep P G HG HC HQ b w t xs Hb Hc) as (d & l & -> & HR & _).
  pose proof (rep_sized _ _ _ _ HR) as Hz.
  destruct (vec_bytes_at P G t d xs i HG HP HR) as [E1 E2].
  rewrite (bytes_at_wrapped P G t xs m i HG HP (rep_slice_ok G t d xs HR) Hm) in E1, E2.
  unfold vd_get, vd_get_mut, debug_assert. destruct HP as [HP1 HP2]. rewrite HP1.
  cbn [obind vc_data vc_vtable]. rewrite E1, E2.
  destruct (nthN xs (i mod m)) as [x|]; cbn [obind fst snd]; [|split; exact I].
  unfold vc_element_type_id. cbn [vc_data]. rewrite (rep_elem _ _ _ _ HR).
  assert (Hv : is_value G t x) by (intros H0; contradiction).
  do 3 eexists. csplit; [reflexivity| |reflexivity|reflexivity| |reflexivity].
  - split; [reflexivity|]. unfold vr_downcast. cbn [vr_type_id vr_bytes elem_new e_type_id].
    rewrite N.eqb_refl, from_bytes_enc by exact Hv. reflexivity.
  - unfold vm_downcast. cbn [vm_type_id vm_bytes elem_new e_type_id].
    rewrite N.eqb_refl, from_bytes_enc by exact Hv. reflexivity.
Qed.

Lemma c83_vec_torn_refuted_fact :
  forall (V : Type) (T : FullTable V) (P : profile) (G : tenv), types_ok G -> unchecked P ->
  forall (b : vecdyn V) w t xs, live_vec P G b w -> contents G b t xs -> 2 <= lenN xs ->
  ~ (exists m, m * t_size (G t) = 2 ^ 64) ->
  exists i r off r', i <= usize_max /\
    vd_get P i b = Ret r /\ vr_downcast G t r = UB UbValue /\
    vr_clone_value G r w = (UB UbValue, w) /\
    vd_get_mut P i b = Ret (off, r') /\ vm_downcast G t r' = UB UbValue.
Proof.
  intros V T P G [HG HC HQ] HP b w t xs Hb Hc Hl Hn.
  destruct (live_vec_rep P G HG HC HQ b w t xs Hb Hc) as (d & l & -> & HR & _).
  destruct (bytes_at_torn P G t xs HG HP (rep_slice_ok G t d xs HR) Hl Hn) as (k & off & bs & Hk & EB & HU).
  destruct (vec_bytes_at P G t d xs k HG HP HR) as [E1 E2]. rewrite EB in E1, E2. cbn [obind snd] in E1.
  unfold vd_get, vd_get_mut, debug_assert. destruct HP as [HP1 HP2].
  exists k. rewrite HP1. cbn [obind vc_data vc_vtable]. rewrite E1, E2. cbn [obind fst snd].
  unfold vc_element_type_id. cbn [vc_data]. rewrite (rep_elem _ _ _ _ HR).
  do 3 eexists. csplit; [exact Hk|reflexivity| | |reflexivity|].
  - unfold vr_downcast. cbn [vr_type_id vr_bytes elem_new e_type_id]. now rewrite N.eqb_refl, HU.
  - unfold vr_clone_value, clone_value_of. cbn [vr_vtable vr_bytes vt_as_ref].
    rewrite law_clone. cbn [call_clone]. now rewrite HU.
  - unfold vm_downcast. cbn [vm_type_id vm_bytes elem_new e_type_id]. now rewrite N.eqb_refl, HU.
Qed.
