(** * DynPois: every call on a [VecDyn] that a panic has left empty. *)

From Verif Require Export DynCallProofs.

(** Values of type [()] are cloned, then those that were given are dropped. *)
Definition given_drops (gives : list tval) : list event := map (fun q => EvDrop (fst q) (snd q)) gives.
Definition extends (gives : list tval) (tr tr' : list event) : Prop :=
  exists es, Forall unit_clone es /\ tr' = tr ++ es ++ given_drops gives.

Lemma given_owned G t vs : given_drops (owned_vals G t vs) = drops G t vs.
Proof.
  unfold given_drops, owned_vals, drops. destruct (t_copy (G t)); [reflexivity|]. rewrite map_map. reflexivity.
Qed.

Lemma extends_refl tr : extends [] tr tr.
Proof. exists []. split; [constructor|]. cbn. now rewrite app_nil_r. Qed.

Lemma extends_app G t vs tr tr1 :
  extends [] tr tr1 -> extends (owned_vals G t vs) tr (tr1 ++ drops G t vs).
Proof.
  intros (es & He & ->). exists es. split; [exact He|]. rewrite given_owned. cbn [given_drops map].
  rewrite app_nil_r. now rewrite app_assoc.
Qed.

Lemma extends_drops G t vs tr : extends (owned_vals G t vs) tr (tr ++ drops G t vs).
Proof. apply extends_app, extends_refl. Qed.

Lemma extends_cons v c tr tr' : extends [] (tr ++ [EvClone unit_id v c]) tr' -> extends [] tr tr'.
Proof.
  intros (es & He & ->). exists (EvClone unit_id v c :: es). split.
  - constructor; [now exists v, c|exact He].
  - now rewrite <- app_assoc.
Qed.

Lemma clone_seq_extends G vs tr cs ok tr' :
  clone_seq G unit_id vs tr = (cs, ok, tr') -> extends [] tr tr'.
Proof.
  revert tr cs. induction vs as [|v vs IH]; intros tr cs; cbn [clone_seq].
  - intros E. injection E as _ _ <-. apply extends_refl.
  - destruct (t_clone (G unit_id) tr v) as [c|]; [|intros E; injection E as _ _ <-; apply extends_refl].
    destruct (clone_seq G unit_id vs (tr ++ [EvClone unit_id v c])) as [[cs' ok'] tr1] eqn:E1.
    intros E. injection E as _ <- <-. apply (extends_cons v c). eapply IH. exact E1.
Qed.

Lemma replace_seq_extends G vs xs tr ys ok tr' :
  wf_tenv G -> replace_seq G unit_id vs xs tr = (ys, ok, tr') -> extends [] tr tr'.
Proof.
  intros HG. revert vs tr ys. induction xs as [|x xs IH]; intros vs tr ys; destruct vs as [|v vs];
    cbn [replace_seq]; try (intros E; injection E as _ _ <-; apply extends_refl).
  destruct (t_clone (G unit_id) tr v) as [c|]; [|intros E; injection E as _ _ <-; apply extends_refl].
  replace (drops G unit_id [x]) with (@nil event)
    by (unfold drops; now rewrite (wf_unit_copy G HG)).
  rewrite app_nil_r.
  destruct (replace_seq G unit_id vs xs (tr ++ [EvClone unit_id v c])) as [[ys' ok'] tr1] eqn:E1.
  intros E. injection E as _ <- <-. apply (extends_cons v c). eapply IH. exact E1.
Qed.

Ltac ext :=
  rewrite ?set_tr_trace;
  solve [ eauto using extends_refl, extends_app, extends_drops, clone_seq_extends, replace_seq_extends ].

Section Pois.
Context {V : Type} `{HD : HasDrop V} `{HCl : HasClone V} `{HE : HasPartialEq V} `{HH : HasHash V}
        `{HF : HasDebug V} `{HT : VTable V} {HL : Lawful V}.
Context (P : profile) (G : tenv) (HG : wf_tenv G) (HC : clones_ok G) (HQ : drops_quietly G).

Inductive dpois {A} (vt : V) (w : world) (gives : list tval) : outcome A * vecdyn V * world -> Prop :=
| DP o n c w' : safe o -> (forall l, Owns w l -> Owns w' l) ->
    bal G [] gives (w_trace w) [] [] [] (w_trace w') -> extends gives (w_trace w) (w_trace w') ->
    dpois vt w gives (o, VecCopy (pois_vec n c) vt, w').

Lemma dpois_same {A} vt n c w (o : outcome A) : safe o -> dpois vt w [] (o, VecCopy (pois_vec n c) vt, w).
Proof. intros. apply DP; auto; [balq|ext]. Qed.

Lemma dpois_dead {A} vt w p : @dpois A vt w [] (Panic p, VecCopy vv_default vt, w).
Proof. change vv_default with (pois_vec 0 usize_max). apply dpois_same. exact I. Qed.

Lemma dpois_full {A} (k : A -> dobs) vt w gives r : dpois vt w gives r -> dpois vt w gives (dfull k r).
Proof. intros [o n c w' Hs HO HB HX]. cbn [dfull]. apply DP; auto. apply safe_bind; [exact Hs|]. intros; exact I. Qed.

Lemma dpois_owning {A} vt w t x (r : outcome A * vecdyn V * world) :
  dpois vt w [] r -> dpois vt w (owned_vals G t [x]) (owning G t x r).
Proof using HQ.
  intros [o n c w' Hs HO HB HX]. destruct o; try contradiction; cbn [owning];
    rewrite drop_val_q by exact HQ; cbn [obind unwind];
    (apply DP; [exact I|intros l Hl; apply Owns_set_tr, HO, Hl| |ext]);
    intros q; specialize (HB q); revert HB; rewrite set_tr_trace; cnts q; lia.
Qed.

Lemma unit_owned xs : owned_vals G unit_id xs = [].
Proof using HG. apply owned_vals_copy, (wf_unit_copy G HG). Qed.
Lemma unit_drops xs : drops G unit_id xs = [].
Proof using HG. unfold drops. rewrite (wf_unit_copy G HG). reflexivity. Qed.

Lemma push_as_dpois n c vt t v w :
  dpois vt w (owned_vals G t [v]) (vc_push_as P G t v (VecCopy (pois_vec n c) vt) w).
Proof using HG HQ.
  unfold vc_push_as, vc_check, vc_element_type_id.
  cbn [vc_data pois_vec vv_elem e_type_id]. destruct (t =? unit_id) eqn:E.
  - apply N.eqb_eq in E as ->. rewrite unit_owned. unfold on_data. cbn [vc_data vc_vtable].
    unfold apply_unchecked, into_vec_unchecked.
    cbn [pois_vec vv_elem e_alignment vv_blk vv_len vv_cap vv_bytes].
    change (num_bytes (ElemInfo unit_id 0 1)) with 0. rewrite (wf_unit_size G HG), (wf_unit_align G HG).
    rewrite !debug_assert_true by reflexivity. cbn [obind].
    rewrite enc_nil by apply (wf_unit_size G HG). unfold v_push. cbn [v_len].
    destruct (n =? v_capacity 0 _).
    + unfold v_grow. cbn [N.eqb]. unfold drop_val. rewrite (wf_unit_copy G HG). cbn [unwind].
      rewrite vec_drop_unit by exact HG. cbn [unwind obind]. apply dpois_dead.
    + cbn [v_blk v_len v_cap v_bytes app]. unfold vv_from_vec, into_valid_vec.
      rewrite (wf_unit_size G HG). change (v_capacity 0 _) with usize_max.
      change (usize_max =? 0) with false. cbn iota beta. cbn [v_blk v_len v_bytes obind].
      unfold elem_new. rewrite (wf_unit_size G HG), (wf_unit_align G HG). change (0 / 1) with 0.
      apply (dpois_same vt (n + 1) usize_max w). exact I.
  - rewrite drop_val_q by exact HQ. cbn [obind].
    apply DP; [exact I|intros; apply Owns_set_tr; assumption| |ext].
    intros q. rewrite set_tr_trace. cnts q. lia.
Qed.

Lemma vd_get_pois i n k (vt : V) :
  (exists p, vd_get P i (VecCopy (pois_vec n k) vt) = Panic p) \/
  vd_get P i (VecCopy (pois_vec n k) vt) = Ret (ValRef [] unit_id 1 (VRef vt)).
Proof.
  unfold vd_get, vv_get_bytes, vv_byte_slice, debug_assert, vd_len, vc_len.
  cbn [vc_data pois_vec vv_elem vv_bytes vv_len vc_vtable].
  change (num_bytes (ElemInfo unit_id 0 1)) with 0. rewrite umul_0_r.
  destruct (index_byte_range_0 P i) as (o & -> & [->|[p ->]]);
    (destruct (debug_assertions P); [destruct (_ <? _)|]); cbn; eauto.
Qed.

Lemma vd_get_mut_pois i n k (vt : V) :
  (exists p, vd_get_mut P i (VecCopy (pois_vec n k) vt) = Panic p) \/
  vd_get_mut P i (VecCopy (pois_vec n k) vt) = Ret (0, ValMut [] unit_id 1 (VRef vt)).
Proof.
  unfold vd_get_mut, vv_get_bytes_mut, vv_byte_slice, debug_assert, vd_len, vc_len.
  cbn [vc_data pois_vec vv_elem vv_bytes vv_len vc_vtable].
  change (num_bytes (ElemInfo unit_id 0 1)) with 0.
  destruct (index_byte_range_0 P i) as (o & -> & [->|[p ->]]);
    (destruct (debug_assertions P); [destruct (_ <? _)|]); cbn [obind]; rewrite ?umul_0_r; cbn; eauto.
Qed.

Lemma vd_iter_pois n c (vt : V) : exists p, vd_iter P (VecCopy (pois_vec n c) vt) = Panic p.
Proof.
  unfold vd_iter, vv_byte_chunks, vv_byte_slice. cbn [vc_data pois_vec vv_len vv_elem vv_bytes].
  change (num_bytes (ElemInfo unit_id 0 1)) with 0. rewrite umul_0_r. cbn. eauto.
Qed.

Lemma chunks_mut_pois n c : exists p, vv_byte_chunks_mut P (pois_vec n c) = Panic p.
Proof.
  unfold vv_byte_chunks_mut. cbn [pois_vec vv_len vv_elem vv_bytes].
  change (num_bytes (ElemInfo unit_id 0 1)) with 0. rewrite umul_0_l. cbn. eauto.
Qed.

Lemma from_bytes_unit : from_bytes G unit_id [] = Ret 0%Z.
Proof using HG.
  unfold from_bytes, read_val, dec. rewrite (wf_unit_size G HG). reflexivity.
Qed.

Lemma clone_into_vec_pois n c (vt : V) t w :
  dpois vt w []
    (match vd_clone_into_vec G t (VecCopy (pois_vec n c) vt) w with
      | (Ret (Some vec), w1) =>
          match vec_elems G t vec with
          | Ret vs =>
              let '(o, w2) := vec_drop G t vec w1 in
              (let! _ := o in Ret (AVals (Some vs)), VecCopy (pois_vec n c) vt, w2)
          | o => (retype o, VecCopy (pois_vec n c) vt, w1)
          end
      | (Ret None, w1) => (Ret (AVals None), VecCopy (pois_vec n c) vt, w1)
      | (o, w1) => (retype o, VecCopy (pois_vec n c) vt, w1)
      end).
Proof using HG.
  unfold vd_clone_into_vec, vd_append_cloned_to_vec, vc_as_slice_as, vc_check, vd_len, vc_len,
    vc_element_type_id. cbn [vc_data pois_vec vv_elem e_type_id vv_len vv_bytes].
  destruct (t =? unit_id) eqn:E.
  2:{ cbn [into_new_vec]. rewrite vec_drop_nil. cbn [obind]. now apply dpois_same. }
  apply N.eqb_eq in E as ->. rewrite read_vals_unit by exact HG. cbn [obind].
  rewrite (wf_unit_size G HG), (wf_unit_align G HG).
  assert (Hr : forall k, v_reserve 0 1 k svec_nil w = (Ret tt, svec_nil, w) \/
                         v_reserve 0 1 k svec_nil w = (Panic PCapacity, svec_nil, w)).
  { intros k. unfold v_reserve. destruct (_ <? _); auto. }
  destruct (Hr n) as [-> | ->].
  - unfold vec_extend_clones. rewrite (wf_unit_size G HG), (wf_unit_align G HG).
    match goal with |- context [v_reserve 0 1 ?k svec_nil w] => destruct (Hr k) as [-> | ->] end.
    + destruct (clone_seq G unit_id (repeat 0%Z (N.to_nat n)) (w_trace w)) as [[cs ok] tr] eqn:Es.
      rewrite (clone_vals_seq G unit_id _ w cs ok tr Es). rewrite encs_unit by exact HG.
      change (v_bytes svec_nil ++ []) with (@nil mbyte). change (v_blk svec_nil) with (@None N).
      assert (HB : bal G [] [] (w_trace w) [] [] [] tr).
      { pose proof (clone_seq_bal _ _ _ _ _ _ _ Es) as HB. rewrite unit_owned in HB. exact HB. }
      destruct ok; cbn [obind into_new_vec].
      * unfold vec_elems. cbn [v_len v_bytes]. rewrite read_vals_unit, vec_drop_unit by exact HG.
        cbn [obind]. apply DP; [exact I|intros; apply Owns_set_tr; assumption|exact HB|ext].
      * rewrite vec_drop_unit by exact HG.
        cbn [unwind retype]. apply DP; [exact I|intros; apply Owns_set_tr; assumption|exact HB|ext].
    + cbn [obind into_new_vec retype]. change svec_nil with (SVec None 0 0 []).
      rewrite vec_drop_unit by exact HG. now apply dpois_same.
  - cbn [retype into_new_vec]. change svec_nil with (SVec None 0 0 []).
    rewrite vec_drop_unit by exact HG. now apply dpois_same.
Qed.

Lemma run_dcall_pois c n k (vt : V) w :
  dcall_typed G c ->
  dpois vt w (step_gives G (DCall 0 c)) (run_dcall P G c (VecCopy (pois_vec n k) vt) w).
Proof using HG HC HQ.
  intros Hty.
  assert (Htype : forall t, vc_check t (VecCopy (pois_vec n k) vt) = (t =? unit_id)) by reflexivity.
  destruct c as [ | | |t'|t'|t' i|t' i v|i t'|t'|t' v|t' m v|t' v| |m|m|i j|t' vs|t'| | ];
    cbn [run_dcall step_gives dcall_typed] in *.
  - now apply dpois_same.
  - now apply dpois_same.
  - now apply dpois_same.
  - now apply dpois_same.
  - unfold vd_as_slice_as, vc_as_slice_as. rewrite Htype.
    destruct (t' =? unit_id) eqn:E; [|now apply dpois_same]. apply N.eqb_eq in E as ->.
    cbn [vc_data pois_vec vv_bytes]. rewrite read_vals_unit by exact HG. now apply dpois_same.
  - unfold vd_get_ref_as, vc_get_as, assert_. destruct (_ <? _); [|now apply dpois_same].
    cbn [obind]. rewrite Htype. destruct (t' =? unit_id) eqn:E; [|now apply dpois_same].
    apply N.eqb_eq in E as ->. cbn [vc_data pois_vec vv_bytes]. rewrite (wf_unit_size G HG), !N.mul_0_r.
    unfold read_val, firstnN, skipnN. cbn. rewrite (wf_unit_size G HG). now apply dpois_same.
  - apply dpois_full. unfold vd_set_as, vc_get_as, assert_.
    destruct (_ <? _); cbn [obind].
    + rewrite Htype. destruct (t' =? unit_id) eqn:E.
      * apply N.eqb_eq in E as ->. rewrite unit_owned. cbn [vc_data pois_vec vv_bytes].
        rewrite (wf_unit_size G HG), !N.mul_0_r.
        unfold read_val, firstnN, skipnN, dec. rewrite (wf_unit_size G HG). cbn [N.to_nat firstn skipn obind].
        rewrite enc_nil by apply (wf_unit_size G HG).
        change (lenN (@nil mbyte) <? 0) with false. change (0 =? 0) with true. cbn iota. cbn [obind].
        rewrite ?assign_val_q by exact HQ. rewrite ?unit_drops, ?app_nil_r. cbn [obind vc_vtable].
        change (vv_splice 0 [] _) with (pois_vec n k). apply DP; [exact I| |intros q; rewrite set_tr_trace; cnts q; lia|ext].
        intros l Hl. apply Owns_set_tr. exact Hl.
      * rewrite drop_val_q by exact HQ. apply DP; [exact I|intros; apply Owns_set_tr; assumption| |ext].
        intros q. rewrite set_tr_trace. cnts q. lia.
    + rewrite drop_val_q by exact HQ. apply DP; [exact I|intros; apply Owns_set_tr; assumption| |ext].
      intros q. rewrite set_tr_trace. cnts q. lia.
  - destruct (vd_get_pois i n k vt) as [[p ->]| ->]; cbn [obind]; [now apply dpois_same|].
    unfold vr_downcast. cbn [vr_type_id vr_bytes]. destruct (unit_id =? t') eqn:E; [|now apply dpois_same].
    apply N.eqb_eq in E as <-. rewrite from_bytes_unit. now apply dpois_same.
  - destruct (vd_iter_pois n k vt) as [p ->]. now apply dpois_same.
  - apply dpois_full. apply push_as_dpois.
  - apply dpois_full. unfold vd_resize. apply dpois_owning. rewrite Htype.
    destruct (t' =? unit_id); [|now apply dpois_same].
    destruct (_ <=? _).
    + unfold vc_reserve, on_data. cbn [vc_data vc_vtable].
      destruct (vv_reserve_pois P n k (m - vd_len (VecCopy (pois_vec n k) vt)) w) as [p ->].
      cbn [retype]. apply dpois_dead.
    + cbn [vc_data]. destruct (chunks_mut_pois n k) as [p ->]. now apply dpois_same.
  - apply dpois_full. unfold vd_fill. apply dpois_owning. unfold vc_as_slice_as. rewrite Htype.
    destruct (t' =? unit_id) eqn:E; [|now apply dpois_same]. apply N.eqb_eq in E as ->.
    cbn [vc_data pois_vec vv_bytes vc_vtable]. rewrite read_vals_unit by exact HG. cbn [obind].
    destruct (replace_seq G unit_id (repeat v (List.length (repeat 0%Z (N.to_nat (vc_len (VecCopy (pois_vec n k) vt))))))
       (repeat 0%Z (N.to_nat (vc_len (VecCopy (pois_vec n k) vt)))) (w_trace w)) as [[ys ok] tr] eqn:Es.
    change (vc_len _) with n in *. rewrite (fill_vals_seq G HQ unit_id v _ w ys ok tr Es).
    rewrite encs_unit by exact HG. change (vv_splice 0 [] _) with (pois_vec n k).
    apply DP; [destruct ok; exact I|intros; apply Owns_set_tr; assumption| |ext].
    pose proof (replace_seq_bal _ _ _ _ _ _ _ _ Es) as HB. rewrite !unit_owned in HB. exact HB.
  - apply dpois_full. unfold vd_clear. cbn [vc_data]. destruct (chunks_mut_pois n k) as [p ->].
    now apply dpois_same.
  - apply dpois_full. unfold vd_rotate_left, vc_rotate_left, on_data. cbn [vc_data vc_vtable].
    destruct (vv_rotate_pois P n k m w) as [[p ->] _]. apply dpois_dead.
  - apply dpois_full. unfold vd_rotate_right, vc_rotate_right, on_data. cbn [vc_data vc_vtable].
    destruct (vv_rotate_pois P n k m w) as [_ [p ->]]. apply dpois_dead.
  - unfold vc_with_mut_slice. rewrite vc_as_slice_pois.
    destruct (slm_swap_pois P vt i j) as (o & -> & Ho). cbn [vc_data vc_vtable].
    change (vv_splice 0 _ _) with (pois_vec n k). apply dpois_full. now apply dpois_same.
  - apply dpois_full. unfold vd_with_mut_slice, vd_as_slice. rewrite vc_as_slice_pois.
    unfold dsm_clone_from_slice, sl_as_slice. rewrite sl_len_pois. cbn [vc_data vc_vtable obind].
    assert (Hs : forall r : outcome bool, safe r -> dpois vt w [] (r, VecCopy (vv_splice 0 (sl_data (pois_slice vt)) (pois_vec n k)) vt, w)).
    { intros r Hr. change (vv_splice 0 _ _) with (pois_vec n k). now apply dpois_same. }
    destruct (sl_check t' (pois_slice vt)); cbn [retype]; now apply Hs.
  - apply clone_into_vec_pois.
  - unfold vd_hash. destruct (vd_iter_pois n k vt) as [p ->]. now apply dpois_same.
  - unfold vd_fmt. destruct (vd_iter_pois n k vt) as [p ->]. now apply dpois_same.
Qed.

End Pois.
