(** * DynFacts5: slices of owned elements, upcasts, comparing copyable references, raw parts. *)

From Verif Require Export DynFacts4.
From Verif Require Import CopyFacts2 SliceFacts UpcastFacts.
From Verif Require Import DynReach.

(** ** C56: slices of owned elements *)

Lemma c56_slice_append_clone_fact :
  forall (V : Type) (P : profile) (G : tenv), types_ok G ->
  forall t xs (vt : V) w cap ys vec w1 cs ok tr,
  slice_ok G t xs -> wf_world w -> vec_make G t cap ys w = (Ret vec, w1) ->
  N.max (N.max (v_cap vec * 2) (lenN ys + lenN xs)) (min_non_zero_cap (t_size (G t))) *
    t_size (G t) <= max_alloc (t_align (G t)) ->
  clone_seq G t xs (w_trace w) = (cs, ok, tr) ->
  exists vec' w2,
    ds_append_clone_to_vec P G t (sl_from_slice G t xs vt) vec w1 =
      (if ok then Ret true else Panic PUser, vec', w2) /\
    vec_elems G t vec' = Ret (ys ++ cs) /\ w_trace w2 = tr /\
    Permutation (vec_block G t vec ++ w_live w2) (vec_block G t vec' ++ w_live w1).
Proof.
  intros V P G [HG HC HQ] t xs vt w cap ys vec w1 cs ok tr Hok Hw Hm Hroom Hs.
  pose proof (slice_srep G t xs vt Hok) as HS. pose proof (proj1 Hok) as Hz.
  destruct (vec_make_spec G t cap ys w _ Hz (world_owns w Hw)) as [(bl & w1' & HE & Hvok & HO1 & Ht)|[HE _]]; [|congruence].
  rewrite HE in Hm. injection Hm as <- <-. cbn [v_cap] in Hroom.
  unfold ds_append_clone_to_vec. rewrite (sl_as_slice_rep P G HG t _ xs t HS). unfold typed. rewrite N.eqb_refl.
  unfold vec_extend_clones. rewrite <- Ht in Hs.
  destruct (v_reserve_spec (t_size (G t)) (t_align (G t)) (lenN xs) _ w1' _ Hz Hvok HO1)
    as [[Hle HE1]|[Hgt [(b1 & w2 & HE1 & Hm & _ & Hpt & HO2 & Ht1)|[HE1 Hcap]]]]; rewrite HE1.
  - rewrite (clone_vals_seq G t xs w1' cs ok tr Hs). do 2 eexists.
    split; [destruct ok; reflexivity|]. csplit.
    + unfold vec_elems. cbn [v_len v_bytes]. rewrite <- encs_app, <- lenN_app. now apply read_vals_encs'.
    + apply set_tr_trace.
    + apply Permutation_app_head. reflexivity.
  - rewrite <- Ht1 in Hs. rewrite (clone_vals_seq G t xs w2 cs ok tr Hs). do 2 eexists.
    split; [destruct ok; reflexivity|]. csplit.
    + unfold vec_elems. cbn [v_len v_bytes]. rewrite <- encs_app, <- lenN_app. now apply read_vals_encs'.
    + apply set_tr_trace.
    + destruct HO1 as [_ HP1], HO2 as [_ HP2].
      change (w_live (set_tr tr w2)) with (w_live w2).
      unfold vec_block, v_own in *. cbn [v_blk v_cap] in *. rewrite HP2, HP1.
      rewrite !app_assoc. apply Permutation_app_tail, Permutation_app_comm.
  - exfalso. unfold grow_cap in Hcap. cbn [v_len v_cap] in Hcap.
    pose proof isize_lt_usize. pose proof (max_alloc_le (t_align (G t))). destruct Hcap as [Hc'|Hc']; nia.
Qed.

Lemma c56_slice_clone_into_vec_fact :
  forall (V : Type) (P : profile) (G : tenv), types_ok G ->
  forall t xs (vt : V) w cs tr,
  slice_ok G t xs -> wf_world w ->
  N.max (lenN xs) (min_non_zero_cap (t_size (G t))) * t_size (G t) <= max_alloc (t_align (G t)) ->
  clone_seq G t xs (w_trace w) = (cs, true, tr) ->
  exists vec w', ds_clone_into_vec P G t (sl_from_slice G t xs vt) w = (Ret (Some vec), w') /\
    vec_elems G t vec = Ret cs /\ w_trace w' = tr /\ allocated w (vec_block G t vec) w'.
Proof.
  intros V P G [HG HC HQ] t xs vt w cs tr Hok Hw Hroom Hs.
  pose proof (slice_srep G t xs vt Hok) as HS. pose proof (proj1 Hok) as Hz.
  unfold ds_clone_into_vec, into_new_vec, ds_append_clone_to_vec.
  rewrite (sl_as_slice_rep P G HG t _ xs t HS). unfold typed. rewrite N.eqb_refl. unfold vec_extend_clones.
  assert (HO : Owns w (v_own (t_size (G t)) (t_align (G t)) svec_nil ++ w_live w)) by now apply world_owns.
  destruct (v_reserve_spec (t_size (G t)) (t_align (G t)) (lenN xs) svec_nil w _ Hz
              (svec_nil_ok (t_size (G t)) (t_align (G t))) HO)
    as [[Hle HE1]|[Hgt [(b1 & w2 & HE1 & Hm & _ & Hpt & HO2 & Ht1)|[HE1 Hcap]]]]; rewrite HE1.
  - rewrite (clone_vals_seq G t xs w cs true tr Hs). do 2 eexists. split; [reflexivity|]. csplit.
    + unfold vec_elems. cbn [v_len v_bytes svec_nil app]. rewrite N.add_0_l. now apply read_vals_encs'.
    + apply set_tr_trace.
    + exact (owns_allocated _ _ _ _ (world_owns w Hw) (proj2 (Owns_set_tr _ _ _) HO)).
  - rewrite <- Ht1 in Hs. rewrite (clone_vals_seq G t xs w2 cs true tr Hs). do 2 eexists.
    split; [reflexivity|]. csplit.
    + unfold vec_elems. cbn [v_len v_bytes svec_nil app]. rewrite N.add_0_l. now apply read_vals_encs'.
    + apply set_tr_trace.
    + exact (owns_allocated _ _ _ _ (world_owns w Hw) (proj2 (Owns_set_tr _ _ _) HO2)).
  - exfalso. unfold grow_cap in Hcap. cbn [v_len v_cap svec_nil] in Hcap.
    pose proof isize_lt_usize. pose proof (max_alloc_le (t_align (G t))). destruct Hcap as [Hc'|Hc']; nia.
Qed.

Lemma c56_slice_other_type_fact :
  forall (V : Type) (P : profile) (G : tenv), types_ok G ->
  forall t xs (vt : V) w t', slice_ok G t xs -> t' <> t ->
  ds_clone_into_vec P G t' (sl_from_slice G t xs vt) w = (Ret None, w) /\
  (forall vec, ds_append_clone_to_vec P G t' (sl_from_slice G t xs vt) vec w = (Ret false, vec, w)) /\
  (forall src, dsm_clone_from_slice P G t' src (sl_from_slice G t xs vt) w =
               (Ret false, sl_from_slice G t xs vt, w)).
Proof.
  intros V P G [HG HC HQ] t xs vt w t' Hok Hne. pose proof (slice_srep G t xs vt Hok) as HS.
  apply N.eqb_neq in Hne.
  assert (HA : forall vec, ds_append_clone_to_vec P G t' (sl_from_slice G t xs vt) vec w = (Ret false, vec, w)).
  { intros vec. unfold ds_append_clone_to_vec. rewrite (sl_as_slice_rep P G HG t _ xs t' HS). unfold typed. now rewrite Hne. }
  csplit; [|exact HA|].
  - unfold ds_clone_into_vec, into_new_vec. rewrite HA.
    unfold vec_drop, vec_elems. cbn [v_len v_bytes svec_nil]. cbn [read_vals N.to_nat]. cbn [obind].
    destruct (t_size (G t') =? 0); reflexivity.
  - intros src. unfold dsm_clone_from_slice. rewrite (sl_as_slice_rep P G HG t _ xs t' HS). unfold typed. now rewrite Hne.
Qed.

(** [clone_from_slice]: each destination element is replaced by a clone and dropped, in order, up to
    the first panicking clone. *)
Lemma c56_clone_from_slice_fact :
  forall (V : Type) (P : profile) (G : tenv), types_ok G ->
  forall t xs (vt : V) src ys ok tr w, slice_ok G t xs ->
  (lenN src <> lenN xs ->
   exists p, dsm_clone_from_slice P G t src (sl_from_slice G t xs vt) w =
             (Panic p, sl_from_slice G t xs vt, w)) /\
  (lenN src = lenN xs -> replace_seq G t src xs (w_trace w) = (ys, ok, tr) ->
   exists w', dsm_clone_from_slice P G t src (sl_from_slice G t xs vt) w =
              (if ok then Ret true else Panic PUser, sl_from_slice G t ys vt, w') /\
     w_trace w' = tr /\ w_live w' = w_live w).
Proof.
  intros V P G [HG HC HQ] t xs vt src ys ok tr w Hok. pose proof (slice_srep G t xs vt Hok) as HS.
  unfold dsm_clone_from_slice. rewrite (sl_as_slice_rep P G HG t _ xs t HS). unfold typed. rewrite N.eqb_refl.
  split.
  - intros Hne. destruct (N.eqb_spec (lenN xs) (lenN src)); [congruence|eauto].
  - intros Hl Es. symmetry in Hl. apply N.eqb_eq in Hl as ->.
    rewrite (clone_from_vals_seq G HQ t _ _ _ _ _ _ Es). eexists. csplit; [|apply set_tr_trace|reflexivity].
    destruct ok; reflexivity.
Qed.

(** ** C25: upcasting vectors, values and references *)

Lemma vd_iter_up {V U} (f : V -> U) P (b : vecdyn V) :
  vd_iter P (vd_upcast f b) =
  map_ret (map (fun r => ValRef (vr_bytes r) (vr_type_id r) (vr_alignment r) (VRef (f (vd_vtable b)))))
          (vd_iter P b).
Proof.
  destruct b as [d vt]. unfold vd_iter, vd_upcast, vc_upcast, map_ret. cbn [vc_data vc_vtable].
  destruct (vv_byte_chunks P d) as [cs| | |]; try reflexivity. cbn [obind]. rewrite map_map. reflexivity.
Qed.

(** Upcasting a vector does not touch the data, and whatever the base table offers does the same
    thing before and after. *)
Lemma c25_vecdyn_upcast_fact :
  forall (V U : Type) (f : V -> U) (P : profile) (G : tenv) (b : vecdyn V),
  (forall t xs, contents G b t xs <-> contents G (vd_upcast f b) t xs) /\
  vd_vtable (vd_upcast f b) = f (vd_vtable b) /\
  (forall (DV : HasDrop V) (DU : HasDrop U), drop_fn (f (vd_vtable b)) = drop_fn (vd_vtable b) ->
     (forall w, vd_drop P G (vd_upcast f b) w = vd_drop P G b w) /\
     (forall w, vd_clear P G (vd_upcast f b) w = upcast_self f (vd_clear P G b w))) /\
  (forall (CV : HasClone V) (CU : HasClone U),
     clone_into_raw_fn (f (vd_vtable b)) = clone_into_raw_fn (vd_vtable b) ->
     (forall w, vd_clone P G (vd_upcast f b) w = upcast_result f (vd_clone P G b w)) /\
     (forall r w, vd_push_cloned P G (vr_upcast f r) (vd_upcast f b) w = upcast_self f (vd_push_cloned P G r b w))) /\
  (forall (HV : HasHash V) (HU : HasHash U), hash_fn (f (vd_vtable b)) = hash_fn (vd_vtable b) ->
     vd_hash P G (vd_upcast f b) = vd_hash P G b) /\
  (forall (FV : HasDebug V) (FU : HasDebug U), fmt_fn (f (vd_vtable b)) = fmt_fn (vd_vtable b) ->
     vd_fmt P G (vd_upcast f b) = vd_fmt P G b) /\
  (forall (EV : HasPartialEq V) (EU : HasPartialEq U), eq_fn (f (vd_vtable b)) = eq_fn (vd_vtable b) ->
     forall b', vd_eq P G (vd_upcast f b) (vd_upcast f b') = vd_eq P G b b').
Proof.
  intros V U f P G b. csplit; try reflexivity.
  - intros DV DU Hd. destruct b as [d vt]. cbn in Hd. unfold vd_drop, vd_clear, vd_upcast, vc_upcast, vc_drop, on_data, upcast_self.
    cbn [vc_data vc_vtable]. rewrite Hd. split; [reflexivity|]. intros w.
    destruct (vv_byte_chunks_mut P d); try reflexivity.
    destruct (drop_chunks _ _ _ _) as [[] w1]; try reflexivity.
    now destruct (vv_clear P d w1) as [[o d'] w2].
  - intros CV CU Hc. destruct b as [d vt]. cbn in Hc. split.
    + intros w. unfold vd_clone, vd_upcast, vc_upcast, upcast_result, map_ret. cbn [vc_data vc_vtable]. rewrite Hc.
      destruct (vv_clone P d w) as [[] w1]; try reflexivity.
      repeat match goal with
      | |- context [vv_byte_chunks ?a ?b] => destruct (vv_byte_chunks a b)
      | |- context [vv_byte_chunks_mut ?a ?b] => destruct (vv_byte_chunks_mut a b)
      | |- context [clone_chunks ?G ?a ?b ?c ?e] => destruct (clone_chunks G a b c e) as [[[] ?] ?]
      | |- context [vv_drop ?a ?b ?c] => destruct (vv_drop a b c) as [[] ?]
      end; reflexivity.
    + intros r w. unfold vd_push_cloned, vd_upcast, vc_upcast, upcast_self, on_data, vr_upcast. cbn [vc_data vc_vtable vr_type_id vr_bytes].
      rewrite Hc. unfold vd_element_type_id, vc_element_type_id. cbn [vc_data].
      destruct (_ =? _); [|reflexivity].
      now destruct (vv_resize_with _ _ _ _ _) as [[[] d'] w2].
  - intros HV HU Hh. unfold vd_hash. rewrite vd_iter_up. unfold map_ret.
    destruct b as [d vt]. unfold vd_iter. cbn in *. destruct (vv_byte_chunks P d) as [cs| | |]; try reflexivity. cbn [obind].
    induction cs as [|c cs IH]; [reflexivity|]. cbn [map hash_all]. unfold vr_hash. cbn [vr_bytes vr_vtable vr_type_id vt_as_ref]. rewrite Hh.
    destruct (call_hash _ _ _); try reflexivity. cbn [obind]. now rewrite IH.
  - intros HV HU Hh. unfold vd_fmt. rewrite vd_iter_up. unfold map_ret.
    destruct b as [d vt]. unfold vd_iter. cbn in *. destruct (vv_byte_chunks P d) as [cs| | |]; try reflexivity. cbn [obind].
    match goal with |- (let! x := ?a in _) = (let! y := ?b in _) => replace a with b; [reflexivity|] end.
    induction cs as [|c cs IH]; [reflexivity|]. cbn [map fmt_all]. unfold vr_fmt. cbn [vr_bytes vr_vtable vr_type_id vt_as_ref]. rewrite Hh.
    destruct (call_fmt _ _ _); try reflexivity. cbn [obind]. now rewrite IH.
  - intros HV HU Hh b'. unfold vd_eq. rewrite !vd_iter_up. unfold map_ret.
    destruct b as [d vt], b' as [d' vt']. unfold vd_iter. cbn in *.
    destruct (vv_byte_chunks P d) as [cs| | |]; try reflexivity. cbn [obind].
    destruct (vv_byte_chunks P d') as [cs'| | |]; try reflexivity. cbn [obind].
    revert cs'. induction cs as [|c cs IH]; [reflexivity|]. intros [|c' cs']; [reflexivity|].
    cbn [map all_eq]. unfold vr_eq. cbn [vr_bytes vr_vtable vr_type_id vt_as_ref]. rewrite Hh.
    destruct (negb _); [reflexivity|]. destruct (call_eq _ _ _ _) as [[]| | |]; try reflexivity. cbn [obind]. apply IH.
Qed.

Lemma c25_value_ref_upcast_fact :
  forall (V U : Type) (f : V -> U) (G : tenv) (r : vref V),
  (forall t, vr_downcast G t (vr_upcast f r) = vr_downcast G t r) /\
  vr_type_id (vr_upcast f r) = vr_type_id r /\
  vt_as_ref (vr_vtable (vr_upcast f r)) = f (vt_as_ref (vr_vtable r)) /\
  (forall (EV : HasPartialEq V) (EU : HasPartialEq U),
     eq_fn (f (vt_as_ref (vr_vtable r))) = eq_fn (vt_as_ref (vr_vtable r)) ->
     forall r', vr_eq G (vr_upcast f r) (vr_upcast f r') = vr_eq G r r') /\
  (forall (EV : HasHash V) (EU : HasHash U),
     hash_fn (f (vt_as_ref (vr_vtable r))) = hash_fn (vt_as_ref (vr_vtable r)) ->
     vr_hash G (vr_upcast f r) = vr_hash G r) /\
  (forall (EV : HasDebug V) (EU : HasDebug U),
     fmt_fn (f (vt_as_ref (vr_vtable r))) = fmt_fn (vt_as_ref (vr_vtable r)) ->
     vr_fmt G (vr_upcast f r) = vr_fmt G r) /\
  m_elem (meta_of_vref (vr_upcast f r)) = m_elem (meta_of_vref r) /\
  m_vtable (meta_of_vref (vr_upcast f r)) = f (m_vtable (meta_of_vref r)).
Proof.
  intros V U f G [bs t al vt].
  assert (Ht : vt_take vt = vt_as_ref vt) by now destruct vt.
  csplit; try reflexivity; try (unfold vr_upcast; cbn; now rewrite Ht).
  - cbn. intros EV EU He r'. unfold vr_eq, vr_upcast. cbn. now rewrite Ht, He.
  - cbn. intros EV EU He. unfold vr_hash, vr_upcast. cbn. now rewrite Ht, He.
  - cbn. intros EV EU He. unfold vr_fmt, vr_upcast. cbn. now rewrite Ht, He.
Qed.

Lemma c25_value_mut_upcast_fact :
  forall (V U : Type) (f : V -> U) (G : tenv) (m : vmut V),
  (forall t, vm_downcast G t (vm_upcast f m) = vm_downcast G t m) /\
  vm_type_id (vm_upcast f m) = vm_type_id m /\
  vt_as_ref (vm_vtable (vm_upcast f m)) = f (vt_as_ref (vm_vtable m)) /\
  (forall m', vm_swap (vm_upcast f m) (vm_upcast f m') =
     let '(o, a, b) := vm_swap m m' in (o, vm_upcast f a, vm_upcast f b)) /\
  (forall (CV : HasClone V) (CU : HasClone U),
     clone_from_fn (f (vt_as_ref (vm_vtable m))) = clone_from_fn (vt_as_ref (vm_vtable m)) ->
     forall r w, vm_clone_from_other G (vm_upcast f m) (vr_upcast f r) w =
       let '(o, a, w') := vm_clone_from_other G m r w in (o, vm_upcast f a, w')).
Proof.
  intros V U f G [bs t al vt].
  assert (Ht : vt_take vt = vt_as_ref vt) by now destruct vt.
  csplit; try reflexivity; try (unfold vm_upcast; cbn; now rewrite Ht).
  - intros [bs' t' al' vt']. unfold vm_swap, vm_upcast, vm_with_bytes.
    cbn [vm_type_id vm_bytes vm_alignment vm_vtable].
    repeat match goal with |- context [if ?c then _ else _] => destruct c end; reflexivity.
  - cbn [vm_vtable]. intros CV CU Hc r w. unfold vm_clone_from_other, vm_upcast, vr_upcast, vm_with_bytes.
    cbn [vm_type_id vm_bytes vm_alignment vm_vtable vr_type_id vr_bytes vt_as_ref]. rewrite Ht, Hc.
    destruct (_ =? _); [|reflexivity]. now destruct (call_clone_from _ _ _ _ _) as [[o b'] w'].
Qed.

(** Upcasting an owned value moves the value and replaces its table. *)
Lemma c25_value_upcast_fact :
  forall (V : Type) (T : FullTable V) (U : Type) (TU : FullTable U) (P : profile) (G : tenv), types_ok G ->
  forall (f : V -> U), (forall t, f (build_vtable t) = build_vtable t) ->
  forall (v : value V) w t x, live_val P G v w -> value_is G v t x ->
  exists v' w', vl_upcast f v w = (Ret v', w') /\ value_is G v' t x /\ vl_store v' = vl_store v /\
    vl_table v' = f (vl_table v) /\ events w [] w' /\
    Permutation (val_blocks v ++ w_live w') (val_blocks v' ++ w_live w) /\
    vl_hash G v' = vl_hash G v /\ vl_fmt G v' = vl_fmt G v /\
    exists w'', vl_drop G v' w' = (Ret tt, w'') /\ events w' (drops G t [x]) w'' /\
                freed w' (val_blocks v') w''.
Proof.
  intros V T U TU P G [HG HC HQ] f Hf v w t x Hl Hi.
  destruct (live_val_rep P G HG HC HQ v w t x Hl Hi) as [HV [l HO]]. unfold val_blocks.
  rewrite !obj_blocks_own in *. unfold vl_upcast.
  destruct (table_new_own (V := U) w _ HO) as (tb & w1 & -> & Hpt & HO1 & Ht1).
  rewrite (vl_own_rep G v t x HV), <- !app_assoc in HO1.
  assert (HO1' : Owns w1 (tab_own (V := V) (vl_tblk v) ++
            store_own (vl_store v) (t_size (G t)) (t_align (G t)) ++ tab_own (V := U) tb ++ l)).
  { eapply Owns_perm; [|exact HO1].
    rewrite (app_assoc (tab_own tb)), (Permutation_app_comm (tab_own tb)), <- app_assoc.
    rewrite (app_assoc (tab_own tb)), (Permutation_app_comm (tab_own tb)), <- !app_assoc.
    rewrite !app_assoc. do 2 apply Permutation_app_tail. apply Permutation_app_comm. }
  destruct (table_free_own (V := V) (vl_tblk v) w1 _ (vp_tblk _ _ _ _ HV) HO1') as (w2 & -> & HO2 & Ht2).
  cbn [obind]. set (v' := Value _ _ _ _ _ _).
  assert (HV' : VRep (V := U) G v' t x).
  { destruct HV. split; try assumption. unfold v'. cbn [vl_table]. now rewrite vp_table, Hf. }
  assert (HO3 : Owns w2 (vl_own v' ++ l)) by (rewrite (vl_own_rep G v' t x HV'), <- app_assoc; exact HO2).
  clear HO2. rename HO3 into HO2.
  exists v', w2. csplit; [reflexivity|now apply vrep_is|reflexivity|reflexivity| | | | |].
  - unfold events. rewrite app_nil_r. congruence.
  - destruct HO as [_ HPo], HO2 as [_ HP2]. rewrite HPo, HP2, ?obj_blocks_own, !app_assoc.
    apply Permutation_app_tail, Permutation_app_comm.
  - now rewrite (vl_hash_rep G v t x HV), (vl_hash_rep G v' t x HV').
  - now rewrite (vl_fmt_rep G v t x HV), (vl_fmt_rep G v' t x HV').
  - destruct (vl_drop_rep G HG HQ v' t x w2 l HV' HO2) as (w3 & E & HO3 & Ht3).
    exists w3. csplit; [exact E|exact Ht3|]. rewrite obj_blocks_own. exact (owns_freed _ _ _ _ HO2 HO3).
Qed.

(** ** C45, C36, C37 for references *)

Lemma c45_copy_ref_eq_fact :
  forall (V : Type) (T : FullTable V) (G : tenv) t x t' x',
  is_value G t x -> is_value G t' x' ->
  cr_eq G (copy_ref_new G t x (build_vtable (V := V) t)) (copy_ref_new G t' x' (build_vtable t')) =
    Ret (if t =? t' then t_eq (G t) x x' else false) /\
  cm_eq G (copy_mut_new G t x (build_vtable (V := V) t)) (copy_mut_new G t' x' (build_vtable t')) =
    Ret (if t =? t' then t_eq (G t) x x' else false) /\
  cr_hash G (copy_ref_new G t x (build_vtable (V := V) t)) = Ret (t_hash (G t) x) /\
  cr_fmt G (copy_ref_new G t x (build_vtable (V := V) t)) = Ret (t_fmt (G t) x).
Proof.
  intros V T G t x t' x' Hx Hx'.
  unfold cr_eq, cm_eq, cr_hash, cr_fmt, copy_ref_new, copy_mut_new.
  cbn [cr_type_id cr_bytes cr_vtable cm_type_id cm_bytes cm_vtable].
  rewrite law_eq, law_hash, law_fmt. cbn [call_eq call_hash call_fmt].
  rewrite (from_bytes_enc G t x Hx). cbn [obind]. csplit; try reflexivity;
    (destruct (N.eqb_spec t t') as [<-|Hne]; cbn [negb]; [|reflexivity]);
    now rewrite (from_bytes_enc G t x' Hx').
Qed.

Lemma c45_mut_eq_fact :
  forall (V : Type) (T : FullTable V) (P : profile) (G : tenv), types_ok G ->
  forall (v v' : value V) w w' t x t' x',
  live_val P G v w -> value_is G v t x -> live_val P G v' w' -> value_is G v' t' x' ->
  vm_eq G (vl_as_mut v) (vl_as_mut v') = Ret (if t =? t' then t_eq (G t) x x' else false) /\
  vm_hash G (vl_as_mut v) = Ret (t_hash (G t) x) /\ vm_fmt G (vl_as_mut v) = Ret (t_fmt (G t) x).
Proof.
  intros V T P G [HG HC HQ] v v' w w' t x t' x' Hv Hi Hv' Hi'.
  destruct (live_val_rep P G HG HC HQ v w t x Hv Hi) as [HV _].
  destruct (live_val_rep P G HG HC HQ v' w' t' x' Hv' Hi') as [HV' _].
  unfold vm_eq, vm_hash, vm_fmt, vl_as_mut. cbn [vm_type_id vm_bytes vm_vtable vt_as_ref].
  rewrite (vp_type _ _ _ _ HV), (vp_type _ _ _ _ HV'), (vp_bytes _ _ _ _ HV), (vp_bytes _ _ _ _ HV'), (vp_table _ _ _ _ HV).
  rewrite law_eq, law_hash, law_fmt. cbn [call_eq call_hash call_fmt].
  rewrite (from_bytes_enc G t x (vp_val _ _ _ _ HV)). cbn [obind]. csplit; try reflexivity.
  destruct (N.eqb_spec t t') as [<-|Hne]; cbn [negb]; [|reflexivity].
  now rewrite (from_bytes_enc G t x' (vp_val _ _ _ _ HV')).
Qed.

Lemma c37_ref_fmt_fact :
  forall (V : Type) (T : FullTable V) (P : profile) (G : tenv), types_ok G ->
  forall (r : vref V) w t x, live_ref P G r w -> ref_is G r t x -> t <> unit_id ->
  vr_fmt G r = Ret (t_fmt (G t) x) /\ vr_hash G r = Ret (t_hash (G t) x).
Proof.
  intros V T P G [HG HC HQ] r w t x Hl Hi Hu.
  destruct (live_ref_ok P G HG HC HQ r w Hl) as (rv & Hr & _).
  pose proof (ref_is_ok G r rv t x Hr Hi Hu) as Hok. remember (Some (t, x)) as tv eqn:Etv.
  destruct Hok as [t1 v1 Hbs Hty _ Hvt Hiv|]; [|discriminate]. injection Etv as -> ->.
  unfold vr_fmt, vr_hash. rewrite Hvt, Hbs, law_hash, law_fmt. cbn [call_hash call_fmt].
  now rewrite (from_bytes_enc G t x Hiv).
Qed.

(** ** C54: raw parts *)

Lemma c54_vecdyn_raw_parts_fact :
  forall (V : Type) (b : vecdyn V),
  let '(d, vt) := vd_into_raw_parts b in vd_from_raw_parts d vt = b.
Proof. now intros V [d vt]. Qed.

Lemma c54_value_raw_parts_fact :
  forall (V : Type) (v : value V),
  let '(bytes, t, al, tab) := vl_into_raw_parts v in vl_from_raw_parts bytes t al tab = v.
Proof. now intros V []. Qed.

(** ** C63: the raw parts of a boxed value can be dropped by safe code *)

Lemma c63_raw_box_partial_fact :
  forall (V : Type) (T : FullTable V) (P : profile) (G : tenv), types_ok G ->
  forall (v : value V) w t x b, live_val P G v w -> value_is G v t x -> vl_store v = Boxed b ->
  let '((store, bytes), _, _, _) := vl_into_raw_parts v in
  (t_size (G t) = 0 \/ t_align (G t) = 1 ->
     exists w', byte_box_drop (ByteBox b bytes) w = (Ret tt, w') /\ events w [] w') /\
  (t_size (G t) <> 0 -> t_align (G t) <> 1 ->
     exists u w', byte_box_drop (ByteBox b bytes) w = (UB u, w')).
Proof.
  intros V T P G [HG HC HQ] v w t x b Hl Hi Hb.
  destruct (live_val_rep P G HG HC HQ v w t x Hl Hi) as [HV [l HO]]. rewrite obj_blocks_own in *.
  unfold vl_into_raw_parts, byte_box_drop. cbn [bb_blk bb_bytes].
  rewrite (vp_bytes _ _ _ _ HV), enc_length.
  pose proof (vp_store _ _ _ _ HV) as Hp. rewrite Hb in Hp.
  rewrite (vl_own_rep G v t x HV), Hb, <- app_assoc in HO. cbn [store_own] in HO. split.
  - intros [H0|H1].
    + unfold dealloc. rewrite H0. cbn [N.eqb]. exists w. split; [reflexivity|unfold events; now rewrite app_nil_r].
    + rewrite H1 in HO. destruct (dealloc_owns b (t_size (G t)) 1 w _ Hp HO) as (w' & -> & _ & Ht).
      exists w'. split; [reflexivity|unfold events; now rewrite app_nil_r].
  - intros Hz Ha. destruct b as [i|]; [|exfalso; now apply Hp].
    unfold owned in HO. rewrite (proj2 (N.eqb_neq _ _) Hz) in HO.
    rewrite (dealloc_wrong_align i _ (t_align (G t)) 1 w _ HO Hz); [eauto|congruence].
Qed.
