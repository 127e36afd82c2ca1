(** * Specifications of the slice operations of SliceCopy.v. *)

From Verif Require Export VecCopyProofs.

(** ** Lists cut into groups *)

Lemma chunks_fuel_concat {A} fuel n (l : list A) :
  (0 < n)%nat -> (List.length l <= fuel)%nat ->
  List.concat (chunks_fuel fuel n l) = firstn (List.length l - List.length l mod n) l /\
  Forall (fun c => List.length c = n) (chunks_fuel fuel n l).
Proof.
  intros Hn. revert l. induction fuel as [|fuel IH]; intros l Hl.
  - destruct l; [|cbn in Hl; lia]. cbn [chunks_fuel List.concat]. split; [now rewrite firstn_nil|constructor].
  - cbn [chunks_fuel]. destruct (List.length l <? n)%nat eqn:E.
    + apply Nat.ltb_lt in E. rewrite Nat.mod_small by exact E. rewrite Nat.sub_diag. cbn. auto.
    + apply Nat.ltb_ge in E.
      assert (HL : List.length (skipn n l) = (List.length l - n)%nat) by apply skipn_length.
      destruct (IH (skipn n l)) as [IH1 IH2]; [lia|]. split.
      * cbn [List.concat]. rewrite IH1, HL.
        assert (Hm : ((List.length l - n) mod n = List.length l mod n)%nat).
        { rewrite <- (Nat.mod_add (List.length l - n) 1 n) by lia. f_equal. lia. }
        rewrite Hm.
        transitivity (firstn (List.length l - List.length l mod n) (firstn n l ++ skipn n l));
          [|now rewrite firstn_skipn].
        rewrite firstn_app, firstn_length, Nat.min_l by exact E.
        pose proof (Nat.mod_le (List.length l - n) n) as Hle. rewrite Hm in Hle.
        rewrite (firstn_all2 (firstn n l)) by (rewrite firstn_length; lia).
        f_equal. f_equal. lia.
      * constructor; [|exact IH2]. rewrite firstn_length. lia.
Qed.

Lemma chunks_fuel_enough {A} fuel fuel' n (l : list A) :
  (0 < n)%nat -> (List.length l <= fuel)%nat -> (List.length l <= fuel')%nat ->
  chunks_fuel fuel n l = chunks_fuel fuel' n l.
Proof.
  intros Hn. revert fuel' l. induction fuel as [|fuel IH]; intros fuel' l Hl Hl'.
  - destruct l; [|cbn in Hl; lia]. destruct fuel'; [reflexivity|]. cbn [chunks_fuel List.length].
    destruct (0 <? n)%nat eqn:E; [reflexivity|]. apply Nat.ltb_ge in E. lia.
  - destruct fuel' as [|fuel'].
    + destruct l; [|cbn in Hl'; lia]. cbn [chunks_fuel List.length].
      destruct (0 <? n)%nat eqn:E; [reflexivity|]. apply Nat.ltb_ge in E. lia.
    + cbn [chunks_fuel]. destruct (List.length l <? n)%nat eqn:E; [reflexivity|].
      apply Nat.ltb_ge in E. f_equal. apply IH; rewrite skipn_length; lia.
Qed.

(** ** Slices *)

Ltac epan := cbn [retype obind andb]; eauto.

Section Specs.
Context {V : Type} (P : profile) (G : tenv) (HG : wf_tenv G).

(** A slice showing the values [xs] of type [t]. *)
Record SRep (t : tyid) (s : slicecopy V) (xs : list payload) : Prop := {
  srep_elem : sl_elem s = elem_new G t;
  srep_sized : t_size (G t) <> 0;
  srep_data : sl_data s = encs G t xs;
  srep_max : lenN xs * t_size (G t) <= isize_max
}.

(** The same slice after its contents changed to [ys]. *)
Definition sl_vals (t : tyid) (s : slicecopy V) (ys : list payload) : slicecopy V :=
  SliceCopy (encs G t ys) (sl_elem s) (sl_vtable s).

Lemma sl_vals_rep t s xs ys :
  SRep t s xs -> lenN ys <= lenN xs -> SRep t (sl_vals t s ys) ys.
Proof. intros H HL. split; cbn; try apply H; try reflexivity. pose proof (srep_max _ _ _ H). nia. Qed.

Lemma srep_size t s xs : SRep t s xs -> sl_element_size s = t_size (G t).
Proof. intros H. unfold sl_element_size. rewrite (srep_elem _ _ _ H). now apply num_bytes_new. Qed.

Lemma srep_nb t s xs : SRep t s xs -> num_bytes (sl_elem s) = t_size (G t).
Proof. apply srep_size. Qed.

Lemma sl_len_rep t s xs : SRep t s xs -> sl_len P s = Ret (lenN xs).
Proof.
  intros H. unfold sl_len, umod, udiv. rewrite (srep_nb _ _ _ H), (srep_data _ _ _ H), encs_length.
  pose proof (srep_sized _ _ _ H) as Hz.
  destruct (t_size (G t) =? 0) eqn:E; [apply N.eqb_eq in E; contradiction|]. cbn [obind].
  rewrite N.mod_mul, N.div_mul by exact Hz. rewrite debug_assert_true by reflexivity.
  now destruct (debug_assertions P).
Qed.

Lemma sl_check_rep t s xs t' : SRep t s xs -> sl_check t' s = (t' =? t).
Proof. intros H. unfold sl_check, sl_element_type_id. now rewrite (srep_elem _ _ _ H). Qed.

Lemma sl_as_slice_rep t s xs t' : SRep t s xs -> sl_as_slice P G t' s = Ret (typed t' t xs).
Proof.
  intros H. unfold sl_as_slice, typed. rewrite (sl_check_rep _ _ _ _ H).
  destruct (t' =? t) eqn:E; [|reflexivity]. apply N.eqb_eq in E as ->.
  rewrite (sl_len_rep _ _ _ H). cbn [obind]. rewrite (srep_data _ _ _ H).
  now rewrite read_vals_encs' by apply H.
Qed.

Lemma slm_as_slice_rep t s xs t' : SRep t s xs -> slm_as_slice P G t' s = Ret (typed t' t xs).
Proof.
  intros H. unfold slm_as_slice, typed. rewrite (sl_len_rep _ _ _ H). cbn [obind].
  rewrite (sl_check_rep _ _ _ _ H).
  destruct (t' =? t) eqn:E; [|reflexivity]. apply N.eqb_eq in E as ->.
  rewrite (srep_data _ _ _ H). now rewrite read_vals_encs' by apply H.
Qed.

Lemma sl_write_all t s xs ys :
  SRep t s xs -> lenN ys = lenN xs -> sl_write 0 (encs G t ys) s = sl_vals t s ys.
Proof.
  intros H HL. unfold sl_write, sl_vals. rewrite (srep_data _ _ _ H), splice_all; [reflexivity|].
  now rewrite !encs_length, HL.
Qed.

Lemma slm_update_rep t s xs t' f :
  SRep t s xs ->
  slm_update P G t' f s = if t' =? t then (Ret true, sl_vals t s (mapi f xs)) else (Ret false, s).
Proof.
  intros H. unfold slm_update. rewrite (slm_as_slice_rep _ _ _ _ H). unfold typed.
  destruct (t' =? t) eqn:E; [|reflexivity]. apply N.eqb_eq in E as ->.
  rewrite (sl_write_all _ _ _ _ H); [reflexivity|]. apply lenN_mapi.
Qed.

Lemma slm_copy_from_slice_rep t s xs t' src :
  SRep t s xs ->
  slm_copy_from_slice P G t' src s =
  if t' =? t then
    if lenN xs =? lenN src then (Ret true, sl_vals t s src) else (Panic PIndex, s)
  else (Ret false, s).
Proof.
  intros H. unfold slm_copy_from_slice. rewrite (slm_as_slice_rep _ _ _ _ H). unfold typed.
  destruct (t' =? t) eqn:E; [|reflexivity]. apply N.eqb_eq in E as ->.
  destruct (lenN xs =? lenN src) eqn:EL; [|reflexivity]. apply N.eqb_eq in EL.
  now rewrite (sl_write_all _ _ _ _ H).
Qed.

Lemma sl_read_elem t s xs i :
  SRep t s xs -> i < lenN xs ->
  exists v, nthN xs i = Some v /\
    firstnN (t_size (G t)) (skipnN (i * t_size (G t)) (sl_data s)) = enc G t v /\
    lenN (sl_data s) <? (i + 1) * t_size (G t) = false.
Proof.
  intros H Hi. rewrite (srep_data _ _ _ H).
  destruct (read_val_at G t xs i (srep_sized _ _ _ H) Hi) as (v & Hn & Hb).
  exists v. csplit; try assumption. apply N.ltb_ge. rewrite encs_length. nia.
Qed.

Lemma sl_get_as_rep t s xs t' i :
  SRep t s xs ->
  sl_get_as P G t' i s =
  match nthN xs i with Some v => Ret (typed t' t v) | None => Panic PAssert end.
Proof.
  intros H. unfold sl_get_as. rewrite (sl_len_rep _ _ _ H). cbn [obind].
  destruct (i <? lenN xs) eqn:E.
  - apply N.ltb_lt in E. cbn [assert_ obind]. rewrite (sl_check_rep _ _ _ _ H).
    destruct (sl_read_elem _ _ _ _ H E) as (v & Hn & Hb & HL). rewrite Hn. unfold typed.
    destruct (t' =? t) eqn:Et; [|reflexivity]. apply N.eqb_eq in Et as ->.
    rewrite HL, Hb, read_val_enc by (apply is_value_sized; apply H). reflexivity.
  - apply N.ltb_ge in E. now rewrite nthN_none.
Qed.

Lemma sl_write_one t s xs i v :
  SRep t s xs -> i < lenN xs ->
  sl_write (i * t_size (G t)) (enc G t v) s = sl_vals t s (list_set xs (N.to_nat i) v).
Proof.
  intros H Hi. unfold sl_write, sl_vals. now rewrite (srep_data _ _ _ H), splice_encs_one.
Qed.

Lemma slm_set_as_rep t s xs t' i v :
  SRep t s xs ->
  slm_set_as P G t' i v s =
  if i <? lenN xs then
    if t' =? t then (Ret true, sl_vals t s (list_set xs (N.to_nat i) v)) else (Ret false, s)
  else (Panic PAssert, s).
Proof.
  intros H. unfold slm_set_as. rewrite (sl_get_as_rep _ _ _ _ _ H).
  destruct (i <? lenN xs) eqn:E.
  - apply N.ltb_lt in E. destruct (lenN_nth xs i E) as [x Hx]. rewrite Hx. unfold typed.
    destruct (t' =? t) eqn:Et; [|reflexivity]. apply N.eqb_eq in Et as ->.
    now rewrite (sl_write_one _ _ _ _ _ H).
  - apply N.ltb_ge in E. now rewrite nthN_none.
Qed.

(** ** Rotation *)

Lemma fits_mul n k : fits P n k -> umul P n k = Ret (n * k) \/ (umul P n k = Panic POverflow /\ usize_max < n * k).
Proof. apply umul_no_wrap. Qed.

Lemma in_usize t s xs n : SRep t s xs -> n <= lenN xs -> n * t_size (G t) <= usize_max.
Proof. intros H Hn. pose proof (srep_max _ _ _ H). pose proof isize_lt_usize. nia. Qed.

Lemma rot_encs t m xs :
  skipnN (m * t_size (G t)) (encs G t xs) ++ firstnN (m * t_size (G t)) (encs G t xs) =
  encs G t (rotl m xs).
Proof. rewrite skipnN_encs, firstnN_encs, <- encs_app. reflexivity. Qed.

Lemma rotl_len {A} m (xs : list A) : lenN (rotl m xs) = lenN xs.
Proof. apply lenN_rot. Qed.
Lemma rotr_len {A} m (xs : list A) : lenN (rotr m xs) = lenN xs.
Proof. apply lenN_rot. Qed.

Lemma slm_rotate_left_rep t s xs k :
  SRep t s xs -> k <= lenN xs -> slm_rotate_left P k s = (Ret tt, sl_vals t s (rotl k xs)).
Proof.
  intros H Hk. unfold slm_rotate_left. rewrite (srep_size _ _ _ H).
  rewrite umul_ok by now apply (in_usize _ _ _ _ H).
  rewrite (srep_data _ _ _ H), encs_length.
  destruct (k * t_size (G t) <=? lenN xs * t_size (G t)) eqn:E.
  - now rewrite rot_encs.
  - apply N.leb_gt in E. nia.
Qed.

Lemma slm_rotate_right_rep t s xs k :
  SRep t s xs -> k <= lenN xs -> slm_rotate_right P k s = (Ret tt, sl_vals t s (rotr k xs)).
Proof.
  intros H Hk. unfold slm_rotate_right. rewrite (srep_size _ _ _ H).
  rewrite umul_ok by now apply (in_usize _ _ _ _ H).
  rewrite (srep_data _ _ _ H), encs_length.
  destruct (k * t_size (G t) <=? lenN xs * t_size (G t)) eqn:E.
  - rewrite <- N.mul_sub_distr_r. now rewrite rot_encs.
  - apply N.leb_gt in E. nia.
Qed.

Lemma slm_rotate_out t s xs k :
  SRep t s xs -> lenN xs < k -> fits P k (t_size (G t)) ->
  exists p, slm_rotate_left P k s = (Panic p, s) /\ slm_rotate_right P k s = (Panic p, s).
Proof.
  intros H Hk Hf. unfold slm_rotate_left, slm_rotate_right. rewrite (srep_size _ _ _ H).
  rewrite (srep_data _ _ _ H), encs_length. pose proof (srep_sized _ _ _ H).
  destruct (fits_mul _ _ Hf) as [->|[-> _]].
  - destruct (k * t_size (G t) <=? lenN xs * t_size (G t)) eqn:E; [apply N.leb_le in E; nia|]. epan.
  - epan.
Qed.

(** ** Iteration *)

Lemma sl_iter_rep t s xs :
  SRep t s xs -> sl_iter s = Ret (map (elem_ref G t (sl_vtable s)) xs).
Proof.
  intros H. unfold sl_iter. rewrite (srep_nb _ _ _ H), (srep_data _ _ _ H).
  rewrite chunks_exact_encs by apply H. cbn [obind]. rewrite map_map.
  unfold sl_ref, sl_element_type_id. rewrite (srep_elem _ _ _ H). reflexivity.
Qed.

Definition elem_mut (t : tyid) (vt : V) (v : payload) : copy_mut V :=
  CopyMut (enc G t v) t (t_align (G t)) vt.

Lemma slm_iter_rep t s xs :
  SRep t s xs -> slm_iter s = Ret (map (elem_mut t (sl_vtable s)) xs).
Proof.
  intros H. unfold slm_iter. rewrite (srep_nb _ _ _ H), (srep_data _ _ _ H).
  rewrite chunks_exact_encs by apply H. cbn [obind]. rewrite map_map.
  unfold sl_mut, sl_element_type_id. rewrite (srep_elem _ _ _ H). reflexivity.
Qed.

Lemma slm_iter_copy_rep {U} t s xs t' v (vt' : U) :
  SRep t s xs ->
  slm_iter_copy (copy_ref_new G t' v vt') s =
  (Ret tt, sl_vals t s (if t' =? t then repeat v (List.length xs) else xs)).
Proof.
  intros H. unfold slm_iter_copy. rewrite (slm_iter_rep _ _ _ H).
  replace (map (elem_mut t (sl_vtable s)) xs)
    with (map (fun bs => CopyMut bs t (t_align (G t)) (sl_vtable s)) (map (enc G t) xs))
    by now rewrite map_map.
  rewrite copy_each_rep, concat_encs. rewrite (sl_write_all _ _ _ _ H); [reflexivity|].
  destruct (t' =? t); [|reflexivity]. rewrite lenN_repeat. reflexivity.
Qed.

(** The chunks of [k] elements. *)
Lemma chunks_encs t xs k fuel :
  t_size (G t) <> 0 -> 0 < k -> (List.length (encs G t xs) <= fuel)%nat ->
  chunks_fuel fuel (N.to_nat (t_size (G t) * k)) (encs G t xs) =
  map (encs G t) (chunks_fuel (List.length xs) (N.to_nat k) xs).
Proof.
  intros Hz Hk Hf.
  assert (Hgen : forall m (ys : list payload), (List.length ys <= m)%nat ->
    forall fuel, (List.length (encs G t ys) <= fuel)%nat ->
    chunks_fuel fuel (N.to_nat (t_size (G t) * k)) (encs G t ys) =
    map (encs G t) (chunks_fuel m (N.to_nat k) ys)).
  2:{ now apply Hgen. }
  clear xs fuel Hf.
  assert (HLen : forall ys : list payload,
    List.length (encs G t ys) = (List.length ys * N.to_nat (t_size (G t)))%nat).
  { intros ys. pose proof (encs_length G t ys) as HL. unfold lenN in HL. nia. }
  induction m as [|m IH]; intros ys Hm fuel Hf.
  - destruct ys; [|cbn in Hm; lia]. cbn [encs flat_map chunks_fuel map].
    destruct fuel; [reflexivity|]. cbn [chunks_fuel List.length].
    destruct (0 <? N.to_nat (t_size (G t) * k))%nat eqn:E; [reflexivity|].
    apply Nat.ltb_ge in E. nia.
  - destruct fuel as [|fuel].
    { assert (ys = []) by (destruct ys; [reflexivity|]; rewrite HLen in Hf; cbn in Hf; nia). subst.
      cbn [encs flat_map chunks_fuel List.length].
      destruct (0 <? N.to_nat k)%nat eqn:E; [reflexivity|]. apply Nat.ltb_ge in E. lia. }
    cbn [chunks_fuel]. rewrite HLen, N2Nat.inj_mul, (Nat.mul_comm (N.to_nat (t_size (G t)))).
    destruct (List.length ys <? N.to_nat k)%nat eqn:E.
    + apply Nat.ltb_lt in E.
      destruct (List.length ys * N.to_nat (t_size (G t)) <? N.to_nat k * N.to_nat (t_size (G t)))%nat
        eqn:E2; [reflexivity|]. apply Nat.ltb_ge in E2. nia.
    + apply Nat.ltb_ge in E.
      destruct (List.length ys * N.to_nat (t_size (G t)) <? N.to_nat k * N.to_nat (t_size (G t)))%nat
        eqn:E2; [apply Nat.ltb_lt in E2; nia|].
      assert (Hsk : skipn (N.to_nat k * N.to_nat (t_size (G t))) (encs G t ys) =
                    encs G t (skipn (N.to_nat k) ys)).
      { rewrite <- N2Nat.inj_mul. change (skipnN (k * t_size (G t)) (encs G t ys) =
          encs G t (skipnN k ys)). apply skipnN_encs. }
      assert (Hfi : firstn (N.to_nat k * N.to_nat (t_size (G t))) (encs G t ys) =
                    encs G t (firstn (N.to_nat k) ys)).
      { rewrite <- N2Nat.inj_mul. change (firstnN (k * t_size (G t)) (encs G t ys) =
          encs G t (firstnN k ys)). apply firstnN_encs. }
      cbn [map]. rewrite Hsk, Hfi. f_equal.
      rewrite <- N2Nat.inj_mul, N.mul_comm. apply IH.
      * rewrite skipn_length. lia.
      * rewrite HLen in *. rewrite skipn_length. nia.
Qed.

Lemma sl_chunks_exact_rep t s xs k :
  SRep t s xs -> 0 < k -> t_size (G t) * k <= usize_max ->
  sl_chunks_exact P k s =
  Ret (map (sl_vals t s) (chunks_fuel (List.length xs) (N.to_nat k) xs)).
Proof.
  intros H Hk Hm. unfold sl_chunks_exact. rewrite (srep_nb _ _ _ H), umul_ok by exact Hm.
  cbn [obind]. unfold chunks_exact. rewrite (srep_data _ _ _ H). pose proof (srep_sized _ _ _ H).
  destruct (t_size (G t) * k =? 0) eqn:E; [apply N.eqb_eq in E; nia|]. cbn [obind].
  rewrite chunks_encs by (try assumption; apply le_n). now rewrite map_map.
Qed.

(** ** split_at, indexing, subslices *)

Lemma sl_split_at_rep t s xs k :
  SRep t s xs -> k <= lenN xs ->
  sl_split_at P k s =
  Ret (sl_vals t s (firstnN k xs), k * t_size (G t), sl_vals t s (skipnN k xs)).
Proof.
  intros H Hk. unfold sl_split_at. rewrite (srep_nb _ _ _ H).
  rewrite umul_ok by now apply (in_usize _ _ _ _ H). cbn [obind].
  rewrite (srep_data _ _ _ H), encs_length.
  destruct (k * t_size (G t) <=? lenN xs * t_size (G t)) eqn:E; [|apply N.leb_gt in E; nia].
  now rewrite firstnN_encs, skipnN_encs.
Qed.

Lemma sl_split_at_out t s xs k :
  SRep t s xs -> lenN xs < k -> fits P k (t_size (G t)) -> exists p, sl_split_at P k s = Panic p.
Proof.
  intros H Hk Hf. unfold sl_split_at. rewrite (srep_nb _ _ _ H).
  rewrite (srep_data _ _ _ H), encs_length. pose proof (srep_sized _ _ _ H).
  destruct (fits_mul _ _ Hf) as [->|[-> _]]; cbn [obind]; [|epan].
  destruct (k * t_size (G t) <=? lenN xs * t_size (G t)) eqn:E; [apply N.leb_le in E; nia|]. epan.
Qed.

Lemma index_byte_range_ok es i :
  (i + 1) * es <= usize_max -> i + 1 <= usize_max ->
  index_byte_range P es i = Ret (i * es, (i + 1) * es).
Proof.
  intros H Hi. unfold index_byte_range. rewrite umul_ok by nia. cbn [obind].
  rewrite uadd_ok by exact Hi. cbn [obind]. now rewrite umul_ok by exact H.
Qed.

Lemma index_byte_range_fits es i :
  es <> 0 -> fits P (i + 1) es ->
  ((i + 1) * es <= usize_max /\ index_byte_range P es i = Ret (i * es, (i + 1) * es)) \/
  (usize_max < (i + 1) * es /\ index_byte_range P es i = Panic POverflow).
Proof.
  intros Hes Hf. destruct (N.le_gt_cases ((i + 1) * es) usize_max) as [H|H].
  - left. split; [exact H|]. apply index_byte_range_ok; nia.
  - right. split; [exact H|]. destruct Hf as [Hf|Hf]; [lia|].
    unfold index_byte_range, umul, uadd. rewrite Hf.
    destruct (i * es <=? usize_max); [|reflexivity]. cbn [obind].
    destruct (i + 1 <=? usize_max); [|reflexivity]. cbn [obind].
    apply N.leb_gt in H. now rewrite H.
Qed.

Lemma index_elem t xs i v :
  nthN xs i = Some v ->
  t_size (G t) <> 0 ->
  index_range (encs G t xs) (i * t_size (G t)) ((i + 1) * t_size (G t)) = Ret (enc G t v).
Proof.
  intros Hn Hz. pose proof (nthN_some _ _ _ Hn) as Hi. unfold index_range.
  rewrite encs_length.
  destruct (i * t_size (G t) <=? (i + 1) * t_size (G t)) eqn:E1; [|apply N.leb_gt in E1; nia].
  destruct ((i + 1) * t_size (G t) <=? lenN xs * t_size (G t)) eqn:E2; [|apply N.leb_gt in E2; nia].
  cbn [andb]. destruct (read_val_at G t xs i Hz Hi) as (x & Hx & Hb).
  replace ((i + 1) * t_size (G t) - i * t_size (G t)) with (t_size (G t)) by lia.
  unfold nthN in Hn. congruence.
Qed.

Lemma sl_bounds_debug_rep t s xs i :
  SRep t s xs -> i < lenN xs -> sl_bounds_debug P i s = Ret tt.
Proof.
  intros H Hi. unfold sl_bounds_debug. rewrite (sl_len_rep _ _ _ H). cbn [obind].
  rewrite debug_assert_true by now apply N.ltb_lt. now destruct (debug_assertions P).
Qed.

Lemma sl_bounds_debug_out t s xs i :
  SRep t s xs -> lenN xs <= i ->
  sl_bounds_debug P i s = if debug_assertions P then Panic PDebugAssert else Ret tt.
Proof.
  intros H Hi. unfold sl_bounds_debug. rewrite (sl_len_rep _ _ _ H). cbn [obind].
  unfold debug_assert. apply N.ltb_ge in Hi. rewrite Hi. now destruct (debug_assertions P).
Qed.

Lemma sl_get_rep t s xs i v :
  SRep t s xs -> nthN xs i = Some v -> sl_get P i s = Ret (elem_ref G t (sl_vtable s) v).
Proof.
  intros H Hn. pose proof (nthN_some _ _ _ Hn) as Hi. unfold sl_get.
  rewrite (sl_bounds_debug_rep _ _ _ _ H Hi). cbn [obind]. rewrite (srep_size _ _ _ H).
  pose proof (srep_sized _ _ _ H) as Hz.
  assert (Hm : (i + 1) * t_size (G t) <= usize_max) by (apply (in_usize _ _ _ _ H); lia).
  rewrite index_byte_range_ok by nia. cbn [obind fst snd].
  rewrite (srep_data _ _ _ H), (index_elem _ _ _ _ Hn) by exact Hz. cbn [obind].
  unfold sl_ref, sl_element_type_id. now rewrite (srep_elem _ _ _ H).
Qed.

Lemma slm_get_mut_rep t s xs i v :
  SRep t s xs -> nthN xs i = Some v ->
  slm_get_mut P i s = Ret (i * t_size (G t), elem_mut t (sl_vtable s) v).
Proof.
  intros H Hn. pose proof (nthN_some _ _ _ Hn) as Hi. unfold slm_get_mut.
  rewrite (sl_bounds_debug_rep _ _ _ _ H Hi). cbn [obind]. rewrite (srep_size _ _ _ H).
  pose proof (srep_sized _ _ _ H) as Hz.
  assert (Hm : (i + 1) * t_size (G t) <= usize_max) by (apply (in_usize _ _ _ _ H); lia).
  rewrite index_byte_range_ok by nia. cbn [obind fst snd].
  rewrite (srep_data _ _ _ H), (index_elem _ _ _ _ Hn) by exact Hz. cbn [obind].
  unfold sl_mut, sl_element_type_id. now rewrite (srep_elem _ _ _ H).
Qed.

Lemma index_range_out {A} (l : list A) a b : lenN l < b -> index_range l a b = Panic PIndex.
Proof.
  intros H. unfold index_range. apply N.leb_gt in H. rewrite H. now rewrite andb_false_r.
Qed.

Lemma sl_get_out t s xs i :
  SRep t s xs -> lenN xs <= i -> debug_assertions P = true \/ fits P (i + 1) (t_size (G t)) ->
  exists p, sl_get P i s = Panic p /\ slm_get_mut P i s = Panic p.
Proof.
  intros H Hi Hf. unfold sl_get, slm_get_mut. rewrite (sl_bounds_debug_out _ _ _ _ H Hi).
  destruct (debug_assertions P) eqn:ED; cbn [obind]; [epan|].
  destruct Hf as [Hf|Hf]; [discriminate|]. pose proof (srep_sized _ _ _ H) as Hz.
  rewrite (srep_size _ _ _ H), (srep_data _ _ _ H).
  destruct (index_byte_range_fits _ _ Hz Hf) as [[_ ->]|[_ ->]]; cbn [obind fst snd]; [|epan].
  rewrite index_range_out by (rewrite encs_length; nia). epan.
Qed.

Lemma slm_get_mut_copy_rep {U} t s xs i x t' v (vt' : U) :
  SRep t s xs -> nthN xs i = Some x ->
  slm_get_mut_copy P i (copy_ref_new G t' v vt') s =
  if t' =? t then (Ret true, sl_vals t s (list_set xs (N.to_nat i) v)) else (Ret false, s).
Proof.
  intros H Hn. unfold slm_get_mut_copy. rewrite (slm_get_mut_rep _ _ _ _ _ H Hn).
  unfold elem_mut. rewrite cm_copy_elem. destruct (t' =? t); [|reflexivity].
  cbn [cm_bytes]. rewrite (sl_write_one _ _ _ _ _ H); [reflexivity|]. now apply nthN_some in Hn.
Qed.

Lemma sub_encs t a n xs :
  firstnN (n * t_size (G t)) (skipnN (a * t_size (G t)) (encs G t xs)) =
  encs G t (firstnN n (skipnN a xs)).
Proof. now rewrite skipnN_encs, firstnN_encs. Qed.

(** A half-open range [a..b] that is in bounds. *)
Lemma sl_subslice_rep t s xs a b :
  SRep t s xs -> a <= b -> b <= lenN xs ->
  sl_subslice P (RRange a b) s =
  Ret (a * t_size (G t), sl_vals t s (firstnN (b - a) (skipnN a xs))).
Proof.
  intros H Hab Hb. unfold sl_subslice. rewrite (srep_size _ _ _ H). cbn [scale_range].
  rewrite !umul_ok by (apply (in_usize _ _ _ _ H); lia). cbn [obind].
  unfold index_with, range_bounds. rewrite (srep_data _ _ _ H), encs_length.
  destruct (a * t_size (G t) <=? b * t_size (G t)) eqn:E1; [|apply N.leb_gt in E1; nia].
  destruct (b * t_size (G t) <=? lenN xs * t_size (G t)) eqn:E2; [|apply N.leb_gt in E2; nia].
  cbn [andb obind fst snd]. rewrite <- N.mul_sub_distr_r, sub_encs. reflexivity.
Qed.

Lemma sl_subslice_to t s xs b :
  SRep t s xs -> b <= lenN xs ->
  sl_subslice P (RTo b) s = Ret (0, sl_vals t s (firstnN b xs)).
Proof.
  intros H Hb. unfold sl_subslice. rewrite (srep_size _ _ _ H). cbn [scale_range].
  rewrite !umul_ok by (apply (in_usize _ _ _ _ H); lia). cbn [obind].
  unfold index_with, range_bounds. rewrite (srep_data _ _ _ H), encs_length.
  rewrite (proj2 (N.leb_le 0 (b * t_size (G t)))) by lia.
  destruct (b * t_size (G t) <=? lenN xs * t_size (G t)) eqn:E2; [|apply N.leb_gt in E2; nia].
  cbn [andb obind fst snd]. rewrite N.sub_0_r, skipnN_0, firstnN_encs. reflexivity.
Qed.

Lemma sl_subslice_from t s xs a :
  SRep t s xs -> a <= lenN xs ->
  sl_subslice P (RFrom a) s = Ret (a * t_size (G t), sl_vals t s (skipnN a xs)).
Proof.
  intros H Hb. unfold sl_subslice. rewrite (srep_size _ _ _ H). cbn [scale_range].
  rewrite !umul_ok by (apply (in_usize _ _ _ _ H); lia). cbn [obind].
  unfold index_with, range_bounds. rewrite (srep_data _ _ _ H), encs_length.
  destruct (a * t_size (G t) <=? lenN xs * t_size (G t)) eqn:E2; [|apply N.leb_gt in E2; nia].
  cbn [obind fst snd]. rewrite <- N.mul_sub_distr_r, sub_encs.
  rewrite (firstnN_all _ (skipnN a xs)); [reflexivity|]. rewrite lenN_skipnN. lia.
Qed.

Lemma sl_subslice_full t s xs :
  SRep t s xs -> sl_subslice P RFull s = Ret (0, sl_vals t s xs).
Proof.
  intros H. unfold sl_subslice. cbn [scale_range obind]. unfold index_with, range_bounds.
  cbn [obind fst snd]. rewrite N.sub_0_r, skipnN_0, firstnN_all by lia.
  unfold sl_vals. now rewrite (srep_data _ _ _ H).
Qed.

(** Out-of-bounds half-open ranges. *)
Lemma sl_subslice_out t s xs a b :
  SRep t s xs -> b < a \/ lenN xs < b -> fits P a (t_size (G t)) -> fits P b (t_size (G t)) ->
  exists p, sl_subslice P (RRange a b) s = Panic p.
Proof.
  intros H Hab Ha Hb. unfold sl_subslice. rewrite (srep_size _ _ _ H). cbn [scale_range].
  pose proof (srep_sized _ _ _ H).
  destruct (fits_mul _ _ Ha) as [->|[-> _]]; cbn [obind]; [|epan].
  destruct (fits_mul _ _ Hb) as [->|[-> _]]; cbn [obind]; [|epan].
  unfold index_with, range_bounds. rewrite (srep_data _ _ _ H), encs_length.
  destruct (a * t_size (G t) <=? b * t_size (G t)) eqn:E1; [|epan]. apply N.leb_le in E1.
  destruct (b * t_size (G t) <=? lenN xs * t_size (G t)) eqn:E2; [|epan]. apply N.leb_le in E2.
  exfalso. assert (a <= b) by nia. nia.
Qed.

Lemma sl_subslice_to_out t s xs b :
  SRep t s xs -> lenN xs < b -> fits P b (t_size (G t)) ->
  exists p, sl_subslice P (RTo b) s = Panic p.
Proof.
  intros H Hab Hb. unfold sl_subslice. rewrite (srep_size _ _ _ H). cbn [scale_range].
  pose proof (srep_sized _ _ _ H).
  destruct (fits_mul _ _ Hb) as [->|[-> _]]; cbn [obind]; [|epan].
  unfold index_with, range_bounds. rewrite (srep_data _ _ _ H), encs_length.
  rewrite (proj2 (N.leb_le 0 (b * t_size (G t)))) by lia.
  destruct (b * t_size (G t) <=? lenN xs * t_size (G t)) eqn:E2; [|cbn; epan].
  apply N.leb_le in E2. nia.
Qed.

Lemma sl_subslice_from_out t s xs a :
  SRep t s xs -> lenN xs < a -> fits P a (t_size (G t)) ->
  exists p, sl_subslice P (RFrom a) s = Panic p.
Proof.
  intros H Hab Hb. unfold sl_subslice. rewrite (srep_size _ _ _ H). cbn [scale_range].
  pose proof (srep_sized _ _ _ H).
  destruct (fits_mul _ _ Hb) as [->|[-> _]]; cbn [obind]; [|epan].
  unfold index_with, range_bounds. rewrite (srep_data _ _ _ H), encs_length.
  destruct (a * t_size (G t) <=? lenN xs * t_size (G t)) eqn:E2; [|epan].
  apply N.leb_le in E2. nia.
Qed.

(** ** swap *)

Lemma list_set_comm {A} (l : list A) i j x y :
  i <> j -> list_set (list_set l i x) j y = list_set (list_set l j y) i x.
Proof.
  revert i j. induction l as [|a l IH]; intros [|i] [|j] H; cbn; try reflexivity; try lia.
  f_equal. apply IH. lia.
Qed.

Lemma list_set_app_l {A} (l l' : list A) i x :
  (i < List.length l)%nat -> list_set (l ++ l') i x = list_set l i x ++ l'.
Proof.
  revert i. induction l as [|y l IH]; intros [|i] H; cbn in *; try lia; [reflexivity|].
  f_equal. apply IH. lia.
Qed.

Lemma swapN_sym {A} i j (l : list A) : swapN i j l = swapN j i l.
Proof.
  unfold swapN. destruct (nthN l i) eqn:Ei, (nthN l j) eqn:Ej; try reflexivity.
  destruct (N.eq_dec i j) as [->|Hne].
  - rewrite Ei in Ej. injection Ej as ->. reflexivity.
  - apply list_set_comm. lia.
Qed.

Lemma swap_bytes t xs lo hi a b :
  t_size (G t) <> 0 -> lo < hi -> nthN xs lo = Some a -> nthN xs hi = Some b ->
  splice (lo * t_size (G t)) (enc G t b) (encs G t (firstnN hi xs)) ++
  splice 0 (enc G t a) (encs G t (skipnN hi xs)) =
  encs G t (swapN lo hi xs).
Proof.
  intros Hz Hlt Ha Hb. unfold swapN. rewrite Ha, Hb.
  pose proof (nthN_some _ _ _ Hb) as Hhi.
  rewrite splice_encs_one by (rewrite lenN_firstnN; lia).
  replace 0 with (0 * t_size (G t)) by lia.
  rewrite splice_encs_one by (rewrite lenN_skipnN; lia).
  rewrite <- encs_app. f_equal.
  set (i := N.to_nat lo). set (j := N.to_nat hi).
  assert (Hj : (j < List.length xs)%nat) by (unfold j, lenN in *; lia).
  assert (Hij : (i < j)%nat) by (unfold i, j; lia).
  unfold firstnN, skipnN. fold j. change (N.to_nat 0) with 0%nat.
  assert (Hf : List.length (firstn j xs) = j) by (rewrite firstn_length; lia).
  rewrite <- (firstn_skipn j xs) at 3.
  rewrite list_set_app_l by lia.
  assert (Hl : j = (List.length (list_set (firstn j xs) i b) + 0)%nat)
    by (rewrite list_set_length; lia).
  symmetry. etransitivity; [|apply list_set_app_r]. now rewrite <- Hl.
Qed.

Lemma slm_swap_rep t s xs i j :
  SRep t s xs -> i < lenN xs -> j < lenN xs ->
  slm_swap P i j s = (Ret tt, sl_vals t s (swapN i j xs)).
Proof.
  intros H Hi Hj. unfold slm_swap.
  destruct (i =? j) eqn:E.
  { apply N.eqb_eq in E as <-. f_equal. unfold sl_vals, swapN.
    destruct (lenN_nth xs i Hi) as [x Hx]. rewrite Hx.
    assert (Hid : list_set (list_set xs (N.to_nat i) x) (N.to_nat i) x = xs).
    { clear -Hx. unfold nthN in Hx. revert Hx. generalize (N.to_nat i). clear.
      induction xs as [|y xs IH]; intros [|n] Hn; cbn in *; try discriminate; [congruence|].
      f_equal. now apply IH. }
    rewrite Hid, <- (srep_data _ _ _ H). now destruct s. }
  apply N.eqb_neq in E. rewrite (srep_size _ _ _ H). pose proof (srep_sized _ _ _ H) as Hz.
  assert (HU : forall k, k < lenN xs -> index_byte_range P (t_size (G t)) k =
               Ret (k * t_size (G t), (k + 1) * t_size (G t))).
  { intros k Hk. assert ((k + 1) * t_size (G t) <= usize_max).
    { apply (in_usize _ _ _ _ H). lia. }
    apply index_byte_range_ok; nia. }
  rewrite (HU 0) by lia. cbn [obind].
  set (lo := if i <? j then i else j). set (hi := if i <? j then j else i).
  assert (Hlh : lo < hi /\ hi < lenN xs /\ swapN i j xs = swapN lo hi xs).
  { unfold lo, hi. destruct (i <? j) eqn:Eij.
    - apply N.ltb_lt in Eij. auto.
    - apply N.ltb_ge in Eij. csplit; try lia. apply swapN_sym. }
  destruct Hlh as (Hlt & Hhi & ->). rewrite (HU lo) by lia. cbn [obind fst snd].
  rewrite (umul_ok _ (t_size (G t)) hi).
  2:{ rewrite N.mul_comm. apply (in_usize _ _ _ _ H). lia. }
  cbn [obind]. rewrite (srep_data _ _ _ H), encs_length. rewrite (N.mul_comm _ hi).
  destruct (hi * t_size (G t) <=? lenN xs * t_size (G t)) eqn:E1; [|apply N.leb_gt in E1; nia].
  rewrite firstnN_encs, skipnN_encs.
  destruct (lenN_nth xs lo) as [a Ha]; [lia|]. destruct (lenN_nth xs hi) as [b Hb]; [lia|].
  assert (Ha' : nthN (firstnN hi xs) lo = Some a).
  { unfold nthN, firstnN in *. rewrite <- Ha. rewrite <- (firstn_skipn (N.to_nat hi) xs) at 2.
    symmetry. apply nth_error_app1. rewrite firstn_length. unfold lenN in *. lia. }
  assert (Hb' : nthN (skipnN hi xs) 0 = Some b).
  { unfold nthN, skipnN in *. rewrite <- Hb. rewrite <- (firstn_skipn (N.to_nat hi) xs) at 2.
    rewrite nth_error_app2 by (rewrite firstn_length; lia). f_equal.
    rewrite firstn_length. unfold lenN in *. lia. }
  rewrite (index_elem _ _ _ _ Ha') by exact Hz. cbn [obind].
  rewrite (index_elem _ _ _ _ Hb') by exact Hz. cbn [obind].
  rewrite !enc_length, N.eqb_refl. rewrite N.mul_0_l.
  rewrite (swap_bytes t xs lo hi a b) by assumption. reflexivity.
Qed.

Lemma slm_swap_out t s xs i j :
  SRep t s xs -> i <> j -> lenN xs <= i \/ lenN xs <= j ->
  fits P (i + 1) (t_size (G t)) -> fits P (j + 1) (t_size (G t)) ->
  exists p, slm_swap P i j s = (Panic p, s).
Proof.
  intros H Hne Hout Hi Hj. unfold slm_swap. apply N.eqb_neq in Hne. rewrite Hne.
  apply N.eqb_neq in Hne. rewrite (srep_size _ _ _ H). pose proof (srep_sized _ _ _ H) as Hz.
  set (lo := if i <? j then i else j). set (hi := if i <? j then j else i).
  assert (Hlh : lo < hi /\ lenN xs <= hi /\ fits P (lo + 1) (t_size (G t)) /\
                fits P (hi + 1) (t_size (G t))).
  { unfold lo, hi. destruct (i <? j) eqn:Eij.
    - apply N.ltb_lt in Eij. csplit; try assumption; lia.
    - apply N.ltb_ge in Eij. csplit; try assumption; lia. }
  destruct Hlh as (Hlt & Hhi & Hflo & Hfhi).
  assert (H0 : fits P (0 + 1) (t_size (G t))).
  { left. pose proof (wf_size_max _ (wf_types G HG t)). pose proof isize_lt_usize. lia. }
  destruct (index_byte_range_fits _ _ Hz H0) as [[_ ->]|[_ ->]]; cbn [obind]; [|epan].
  destruct (index_byte_range_fits _ _ Hz Hflo) as [[_ ->]|[_ ->]]; cbn [obind fst snd]; [|epan].
  destruct (umul P (t_size (G t)) hi) as [m|p|u|] eqn:EM; cbn [obind]; try solve [epan].
  - assert (Hm : m = hi * t_size (G t)).
    { unfold umul in EM. destruct (t_size (G t) * hi <=? usize_max) eqn:E.
      - injection EM as <-. lia.
      - apply N.leb_gt in E. destruct Hfhi as [Hf|Hf]; [nia|]. rewrite Hf in EM. discriminate. }
    subst m. rewrite (srep_data _ _ _ H), encs_length.
    destruct (hi * t_size (G t) <=? lenN xs * t_size (G t)) eqn:E1; [|epan].
    apply N.leb_le in E1. assert (hi = lenN xs) by nia. subst hi.
    rewrite firstnN_encs, skipnN_encs.
    destruct (lenN_nth xs lo) as [a Ha]; [lia|].
    assert (Ha' : nthN (firstnN (if i <? j then j else i) xs) lo = Some a).
    { rewrite firstnN_all by lia. exact Ha. }
    rewrite (index_elem _ _ _ _ Ha') by exact Hz. cbn [obind].
    rewrite index_range_out; [epan|]. rewrite encs_length, lenN_skipnN. nia.
  - unfold umul in EM. destruct (_ <=? _); [discriminate|]. destruct (overflow_checks P); discriminate.
  - unfold umul in EM. destruct (_ <=? _); [discriminate|]. destruct (overflow_checks P); discriminate.
Qed.

(** ** Slices of vectors *)

Lemma vc_as_slice_rep t d vt xs :
  Rep G t d xs ->
  exists s, vc_as_slice P (VecCopy d vt) = Ret s /\ SRep t s xs /\ sl_vtable s = vt /\
            sl_elem s = vv_elem d.
Proof.
  intros H. pose proof (byte_slice_rep P G HG t d xs H) as HB. unfold vv_byte_slice in HB.
  unfold vc_as_slice. cbn [vc_data vc_vtable].
  pose proof (rep_no_overflow G HG t d xs H) as (_ & _ & H3). pose proof isize_lt_usize.
  rewrite (rep_num_bytes G HG _ _ _ H) in *. rewrite umul_ok in * by lia. cbn [obind] in *.
  destruct (lenN (vv_bytes d) <? vv_len d * t_size (G t)); [discriminate|].
  injection HB as HB. rewrite HB. eexists. split; [reflexivity|]. csplit; try reflexivity.
  split; cbn; try apply H; try reflexivity. now rewrite <- (rep_len _ _ _ _ H).
Qed.

Lemma with_mut_slice_ret {A} t d vt xs ys (f : slicecopy V -> outcome A * slicecopy V) a :
  Rep G t d xs -> lenN ys = lenN xs ->
  (forall s, SRep t s xs -> f s = (a, sl_vals t s ys)) ->
  vc_with_mut_slice P f (VecCopy d vt) = (a, VecCopy (with_vals G t d ys) vt).
Proof.
  intros H HL Hf. unfold vc_with_mut_slice.
  destruct (vc_as_slice_rep t d vt xs H) as (s & -> & HS & _ & _).
  rewrite (Hf s HS). unfold vv_splice, with_vals, sl_vals. cbn [sl_data vc_data vc_vtable].
  rewrite (rep_bytes _ _ _ _ H), splice_all; [reflexivity|]. now rewrite !encs_length, HL.
Qed.

Lemma with_vals_same t d xs : Rep G t d xs -> with_vals G t d xs = d.
Proof. intros H. unfold with_vals. rewrite <- (rep_bytes _ _ _ _ H). now destruct d. Qed.

Lemma with_mut_slice_same {A} t d vt xs (f : slicecopy V -> outcome A * slicecopy V) :
  Rep G t d xs ->
  (forall s, SRep t s xs -> exists a, f s = (a, s)) ->
  exists s a, SRep t s xs /\ f s = (a, s) /\
  vc_with_mut_slice P f (VecCopy d vt) = (a, VecCopy d vt).
Proof.
  intros H Hf. unfold vc_with_mut_slice.
  destruct (vc_as_slice_rep t d vt xs H) as (s & -> & HS & _ & _).
  destruct (Hf s HS) as (a & Ha). exists s, a. csplit; try assumption.
  rewrite Ha. f_equal. cbn [vc_vtable]. f_equal. rewrite <- (with_vals_same _ _ _ H) at 2.
  unfold vv_splice, with_vals. cbn [vc_data]. rewrite (srep_data _ _ _ HS), (rep_bytes _ _ _ _ H).
  now rewrite splice_all.
Qed.

End Specs.
