(** * SliceFacts: proofs of the property theorems about slice views and value references
    (C21-C25, C44, C54-C56). *)

From Verif Require Export CopyFacts3.

Lemma slice_srep {V} G t xs (vt : V) : slice_ok G t xs -> SRep G t (sl_from_slice G t xs vt) xs.
Proof. intros [Hz Hm]. split; auto. Qed.

Lemma nth_error_firstn_lt {A} (l : list A) n k :
  (k < n)%nat -> nth_error (firstn n l) k = nth_error l k.
Proof.
  revert n k. induction l as [|x l IH]; intros [|n] [|k] H; cbn; try lia; try reflexivity.
  apply IH. lia.
Qed.

Lemma nth_error_skipn {A} (l : list A) n k : nth_error (skipn n l) k = nth_error l (n + k).
Proof.
  revert n. induction l as [|x l IH]; intros [|n]; cbn; try reflexivity; [now destruct k|]. apply IH.
Qed.

(** ** C21 *)

(** The byte positions of a range's ends are representable, or the build checks overflow. *)
Definition range_fits (P : profile) (r : range) (s : N) : Prop :=
  match r with
  | RRange a b | RIncl a b _ => fits P a s /\ fits P b s
  | RTo b | RToIncl b => fits P b s
  | RFrom a => fits P a s
  | RFull => True
  end.

(** Ranges that are not inclusive. *)
Definition half_open (r : range) : Prop :=
  match r with RIncl _ _ _ | RToIncl _ => False | _ => True end.
(** Inclusive ranges that have not been iterated to exhaustion, and all others. *)
Definition fresh_range (r : range) : Prop :=
  match r with RIncl _ _ true => False | _ => True end.

Lemma firstnN_skipnN_all {A} (l : list A) a : firstnN (lenN l - a) (skipnN a l) = skipnN a l.
Proof. apply firstnN_all. rewrite lenN_skipnN. lia. Qed.

Lemma c21_subslice_partial_fact :
  forall (V : Type) (P : profile) (G : tenv), wf_tenv G ->
  forall t xs (vt : V) r,
  slice_ok G t xs -> range_fits P r (t_size (G t)) ->
  half_open r \/ (t_size (G t) = 1 /\ fresh_range r) ->
  match index_with r xs with
  | Ret (a, ys) =>
      sl_subslice P r (sl_from_slice G t xs vt) = Ret (a * t_size (G t), sl_from_slice G t ys vt)
  | _ => is_panic (sl_subslice P r (sl_from_slice G t xs vt))
  end.
Proof.
  intros V P G HG t xs vt r Hok Hf Hr. pose proof (slice_srep G t xs vt Hok) as HS.
  assert (HX : forall (o : outcome (N * slicecopy V)), (exists p, o = Panic p) -> is_panic o)
    by (intros o [p ->]; exact I).
  destruct r as [a b|b|a| |a b ex|b]; unfold index_with, range_bounds; cbn [range_fits] in Hf.
  - destruct (a <=? b) eqn:E1; destruct (b <=? lenN xs) eqn:E2; cbn [andb obind fst snd].
    2-4: apply HX, (sl_subslice_out P G HG t _ xs a b HS); try tauto.
    + rewrite (sl_subslice_rep P G HG t _ xs a b HS); [reflexivity| |];
        now apply N.leb_le.
    + apply N.leb_gt in E2. tauto.
    + apply N.leb_gt in E1. tauto.
    + apply N.leb_gt in E1. tauto.
  - rewrite (proj2 (N.leb_le 0 b)) by lia. destruct (b <=? lenN xs) eqn:E2; cbn [andb obind fst snd].
    + apply N.leb_le in E2. rewrite (sl_subslice_to P G HG t _ xs b HS E2).
      now rewrite N.sub_0_r, N.mul_0_l.
    + apply N.leb_gt in E2. apply HX, (sl_subslice_to_out P G HG t _ xs b HS); auto.
  - destruct (a <=? lenN xs) eqn:E2; cbn [obind fst snd].
    + apply N.leb_le in E2. rewrite (sl_subslice_from P G HG t _ xs a HS E2).
      now rewrite firstnN_skipnN_all.
    + apply N.leb_gt in E2. apply HX, (sl_subslice_from_out P G HG t _ xs a HS); auto.
  - cbn [obind fst snd]. rewrite (sl_subslice_full P G t _ xs HS).
    rewrite N.mul_0_l, N.sub_0_r. unfold skipnN. cbn [N.to_nat skipn]. now rewrite firstnN_all by lia.
  - destruct Hr as [[]|[H1 Hex]]. cbn [fresh_range] in Hex. destruct ex; [tauto|].
    unfold sl_subslice, scale_range. rewrite (srep_size G HG t _ xs HS), H1.
    unfold fits in Hf. rewrite H1, !N.mul_1_r in Hf.
    assert (Hu : forall x, x <= usize_max \/ overflow_checks P = true ->
      umul P x 1 = Ret x \/ (usize_max < x /\ umul P x 1 = Panic POverflow)).
    { intros x Hx. unfold umul. rewrite N.mul_1_r. destruct (x <=? usize_max) eqn:E; [now left|].
      apply N.leb_gt in E. right. split; [lia|]. destruct Hx as [Hx|Hx]; [lia|]. now rewrite Hx. }
    pose proof (proj2 Hok) as Hmax. rewrite H1, N.mul_1_r in Hmax.
    assert (isize_max < usize_max) by (vm_compute; reflexivity).
    destruct Hf as [Ha Hb].
    destruct (Hu a Ha) as [->|[Ha' ->]]; cbn [obind].
    2:{ destruct (b =? usize_max); [exact I|].
        destruct (a <=? b + 1) eqn:E1; destruct (b + 1 <=? lenN xs) eqn:E2; cbn [andb obind]; try exact I.
        apply N.leb_le in E1, E2. lia. }
    destruct (Hu b Hb) as [->|[Hb' ->]]; cbn [obind].
    2:{ destruct (b =? usize_max); [exact I|].
        destruct (a <=? b + 1) eqn:E1; destruct (b + 1 <=? lenN xs) eqn:E2; cbn [andb obind]; try exact I.
        apply N.leb_le in E1, E2. lia. }
    unfold index_with, range_bounds. cbn [sl_from_slice sl_data sl_elem sl_vtable].
    rewrite encs_length, H1, N.mul_1_r.
    destruct (b =? usize_max); [exact I|].
    destruct ((a <=? b + 1) && (b + 1 <=? lenN xs)); [|exact I].
    cbn [obind fst snd]. rewrite N.mul_1_r.
    replace (b + 1 - a) with ((b + 1 - a) * t_size (G t)) at 1 by (rewrite H1; lia).
    replace (skipnN a (encs G t xs)) with (skipnN (a * t_size (G t)) (encs G t xs)) by now rewrite H1, N.mul_1_r.
    now rewrite sub_encs.
  - destruct Hr as [[]|[H1 _]].
    unfold sl_subslice, scale_range. rewrite (srep_size G HG t _ xs HS), H1.
    unfold fits in Hf. rewrite H1, !N.mul_1_r in Hf.
    pose proof (proj2 Hok) as Hmax. rewrite H1, N.mul_1_r in Hmax.
    assert (isize_max < usize_max) by (vm_compute; reflexivity).
    assert (Hu : umul P b 1 = Ret b \/ (usize_max < b /\ umul P b 1 = Panic POverflow)).
    { unfold umul. rewrite N.mul_1_r. destruct (b <=? usize_max) eqn:E; [now left|].
      apply N.leb_gt in E. right. split; [lia|]. destruct Hf as [Hx|Hx]; [lia|]. now rewrite Hx. }
    rewrite (proj2 (N.leb_le 0 _)) by lia.
    destruct Hu as [->|[Hb' ->]]; cbn [obind].
    2:{ destruct (b =? usize_max); [exact I|].
        destruct (b + 1 <=? lenN xs) eqn:E2; cbn [andb obind]; try exact I.
        apply N.leb_le in E2. lia. }
    unfold index_with, range_bounds. cbn [sl_from_slice sl_data sl_elem sl_vtable].
    rewrite encs_length, H1, N.mul_1_r.
    rewrite (proj2 (N.leb_le 0 _)) by lia.
    destruct (b =? usize_max); [exact I|].
    destruct (b + 1 <=? lenN xs); [|exact I].
    cbn [andb obind fst snd]. rewrite N.mul_1_r, N.sub_0_r.
    replace (b + 1) with ((b + 1) * t_size (G t)) at 1 by (rewrite H1; lia).
    unfold skipnN. cbn [N.to_nat skipn]. now rewrite firstnN_encs.
Qed.

(** For larger elements an inclusive range drops the last element it should contain. *)
Lemma c21_inclusive_short_fact :
  forall (V : Type) (P : profile) (G : tenv), wf_tenv G ->
  forall t xs (vt : V) a b ex,
  slice_ok G t xs -> 1 < t_size (G t) -> a <= b -> b < lenN xs ->
  exists s, sl_subslice P (RIncl a b ex) (sl_from_slice G t xs vt) = Ret (a * t_size (G t), s) /\
    sl_len P s = if debug_assertions P then Panic PDebugAssert else Ret (b - a).
Proof.
  intros V P G HG t xs vt a b ex Hok H1 Hab Hb. pose proof (slice_srep G t xs vt Hok) as HS.
  pose proof (proj2 Hok) as Hmax. assert (isize_max < usize_max) by (vm_compute; reflexivity).
  unfold sl_subslice, scale_range. rewrite (srep_size G HG t _ xs HS).
  rewrite !umul_ok by nia. cbn [obind]. unfold index_with, range_bounds.
  cbn [sl_from_slice sl_data sl_elem sl_vtable]. rewrite encs_length.
  assert (b * t_size (G t) + 1 <= lenN xs * t_size (G t)) by nia.
  rewrite (proj2 (N.eqb_neq _ _)) by lia.
  rewrite (proj2 (N.leb_le _ _)) by nia. rewrite (proj2 (N.leb_le _ _)) by nia.
  cbn [andb obind fst snd]. eexists. split; [reflexivity|].
  assert (HL : lenN (firstnN (b * t_size (G t) + 1 - a * t_size (G t))
                     (skipnN (a * t_size (G t)) (encs G t xs))) = (b - a) * t_size (G t) + 1).
  { rewrite lenN_firstnN, lenN_skipnN, encs_length. nia. }
  unfold sl_len, umod, udiv. cbn [sl_data sl_elem]. rewrite HL.
  rewrite (num_bytes_new G t HG). rewrite (proj2 (N.eqb_neq (t_size (G t)) 0)) by lia.
  destruct (debug_assertions P) eqn:Ed.
  - cbn [obind]. rewrite N.add_comm, N.mod_add, N.mod_small by lia.
    unfold debug_assert. now rewrite Ed.
  - cbn [obind]. rewrite N.add_comm, N.div_add, N.div_small by lia. reflexivity.
Qed.

(** ** C22 *)

Lemma c22_split_at_partial_fact :
  forall (V : Type) (P : profile) (G : tenv), wf_tenv G ->
  forall t xs (vt : V) k,
  slice_ok G t xs -> fits P k (t_size (G t)) ->
  (k <= lenN xs ->
     exists off, sl_split_at P k (sl_from_slice G t xs vt) =
       Ret (sl_from_slice G t (firstn (N.to_nat k) xs) vt, off,
            sl_from_slice G t (skipn (N.to_nat k) xs) vt)) /\
  (lenN xs < k -> is_panic (sl_split_at P k (sl_from_slice G t xs vt))).
Proof.
  intros V P G HG t xs vt k Hok Hf. pose proof (slice_srep G t xs vt Hok) as HS. split; intros Hk.
  - rewrite (sl_split_at_rep P G HG t _ xs k HS Hk). eexists. reflexivity.
  - destruct (sl_split_at_out P G HG t _ xs k HS Hk Hf) as [p ->]. exact I.
Qed.

Lemma chunks_groups {A} k fuel (l : list A) :
  (0 < k)%nat -> (List.length l <= fuel)%nat -> groups k l (chunks_fuel fuel k l).
Proof.
  intros Hk. revert l. induction fuel as [|fuel IH]; intros l Hl; cbn [chunks_fuel].
  - constructor. lia.
  - destruct (Nat.ltb_spec (List.length l) k) as [Hlt|Hge]; [now constructor|].
    rewrite <- (firstn_skipn k l) at 1. constructor.
    + now apply firstn_length_le.
    + apply IH. rewrite skipn_length. lia.
Qed.

Lemma groups_unique_fact :
  forall (A : Type) k (l : list A) gs gs',
  (0 < k)%nat -> groups k l gs -> groups k l gs' -> gs = gs'.
Proof.
  intros A k l gs gs' Hk H. revert gs'. induction H as [l Hl|g l gs Hg _ IH]; intros gs' H'.
  - inversion H' as [|g l' gs'' Hg Hgs HE]; subst; [reflexivity|].
    rewrite app_length in Hl. lia.
  - inversion H' as [l' Hl|g' l' gs'' Hg' Hgs HE]; subst.
    + rewrite app_length in Hl. lia.
    + assert (g' = g /\ l' = l) as [-> ->].
      { assert (Hl : List.length g' = List.length g) by congruence. clear -HE Hl. revert g Hl HE.
        induction g' as [|x g' IH]; intros [|y g] Hl HE; cbn in *; try lia; [now split|].
        injection HE as -> HE. destruct (IH g ltac:(lia) HE) as [-> ->]. now split. }
      f_equal. now apply IH.
Qed.

Lemma c22_chunks_exact_partial_fact :
  forall (V : Type) (P : profile) (G : tenv), wf_tenv G ->
  forall t xs (vt : V) k,
  slice_ok G t xs -> 0 < k -> k * t_size (G t) <= usize_max ->
  exists gs, groups (N.to_nat k) xs gs /\
    sl_chunks_exact P k (sl_from_slice G t xs vt) =
      Ret (map (fun g => sl_from_slice G t g vt) gs).
Proof.
  intros V P G HG t xs vt k Hok Hk Hf. pose proof (slice_srep G t xs vt Hok) as HS.
  rewrite (sl_chunks_exact_rep P G HG t _ xs k HS Hk) by lia.
  eexists. split; [|reflexivity]. apply chunks_groups; lia.
Qed.

Lemma c22_zero_chunks_fact :
  forall (V : Type) (P : profile) (G : tenv), wf_tenv G ->
  forall t xs (vt : V),
  slice_ok G t xs -> is_panic (sl_chunks_exact P 0 (sl_from_slice G t xs vt)).
Proof.
  intros V P G HG t xs vt Hok. unfold sl_chunks_exact. rewrite umul_ok by lia. cbn [obind].
  rewrite N.mul_0_r. exact I.
Qed.

(** ** C23 *)

Lemma c23_swap_partial_fact :
  forall (V : Type) (P : profile) (G : tenv), wf_tenv G ->
  forall t xs (vt : V) i j,
  slice_ok G t xs -> fits P (i + 1) (t_size (G t)) -> fits P (j + 1) (t_size (G t)) ->
  (i < lenN xs -> j < lenN xs ->
     slm_swap P i j (sl_from_slice G t xs vt) = (Ret tt, sl_from_slice G t (swapN i j xs) vt)) /\
  (i <> j -> lenN xs <= i \/ lenN xs <= j ->
     exists p, slm_swap P i j (sl_from_slice G t xs vt) = (Panic p, sl_from_slice G t xs vt)).
Proof.
  intros V P G HG t xs vt i j Hok Hi Hj. pose proof (slice_srep G t xs vt Hok) as HS. split.
  - intros H1 H2. now rewrite (slm_swap_rep P G HG t _ xs i j HS H1 H2).
  - intros Hne Ho. now apply (slm_swap_out P G HG t _ xs i j HS).
Qed.

(** ** C24 *)

Lemma c24_subslice_write_fact :
  forall (V : Type) (P : profile) (G : tenv), wf_tenv G ->
  forall t xs (vt : V) a b,
  slice_ok G t xs -> a <= b -> b <= lenN xs ->
  exists off sub,
    sl_subslice P (RRange a b) (sl_from_slice G t xs vt) = Ret (off, sub) /\
    forall ys sub', lenN ys = b - a -> sl_data sub' = encs G t ys ->
      sl_put off sub' (sl_from_slice G t xs vt) =
      sl_from_slice G t (firstnN a xs ++ ys ++ skipnN b xs) vt.
Proof.
  intros V P G HG t xs vt a b Hok Hab Hb. pose proof (slice_srep G t xs vt Hok) as HS.
  rewrite (sl_subslice_rep P G HG t _ xs a b HS Hab Hb). do 2 eexists. split; [reflexivity|].
  intros ys sub' Hl Hd. unfold sl_put, sl_write, sl_from_slice. rewrite Hd. cbn [sl_data sl_elem sl_vtable].
  rewrite splice_encs by lia. now replace (a + lenN ys) with b by lia.
Qed.

(** Whatever is done to a mutable sub-slice with the slice's own operations changes the parent the
    way the operation changes that part of the list. *)
Lemma c24_subslice_swap_fact :
  forall (V : Type) (P : profile) (G : tenv), wf_tenv G ->
  forall t xs (vt : V) a b i j,
  slice_ok G t xs -> a <= b -> b <= lenN xs -> i < b - a -> j < b - a ->
  exists off sub sub',
    sl_subslice P (RRange a b) (sl_from_slice G t xs vt) = Ret (off, sub) /\
    slm_swap P i j sub = (Ret tt, sub') /\
    sl_put off sub' (sl_from_slice G t xs vt) = sl_from_slice G t (swapN (a + i) (a + j) xs) vt.
Proof.
  intros V P G HG t xs vt a b i j Hok Hab Hb Hi Hj. pose proof (slice_srep G t xs vt Hok) as HS.
  rewrite (sl_subslice_rep P G HG t _ xs a b HS Hab Hb).
  set (ys := firstnN (b - a) (skipnN a xs)).
  assert (Hl : lenN ys = b - a).
  { unfold ys. rewrite lenN_firstnN, lenN_skipnN. lia. }
  pose proof (sl_vals_rep G t _ xs ys HS ltac:(lia)) as HS'.
  do 3 eexists. csplit; [reflexivity|apply (slm_swap_rep P G HG t _ ys i j HS'); lia|].
  unfold sl_put, sl_write, sl_from_slice, sl_vals. cbn [sl_data sl_elem sl_vtable].
  assert (Hsw : forall k l (zs : list payload), lenN (swapN k l zs) = lenN zs).
  { intros k l zs. unfold swapN. destruct (nthN zs k), (nthN zs l); rewrite ?lenN_list_set; auto. }
  rewrite splice_encs by (rewrite Hsw; lia). rewrite Hsw, Hl. replace (a + (b - a)) with b by lia.
  f_equal. f_equal.
  assert (Hn : forall k, k < b - a -> nthN ys k = nthN xs (a + k)).
  { intros k Hk. unfold ys, nthN, firstnN, skipnN. rewrite nth_error_firstn_lt by lia.
    rewrite nth_error_skipn. f_equal. lia. }
  assert (Hx : xs = firstnN a xs ++ ys ++ skipnN b xs).
  { unfold ys. replace (skipnN b xs) with (skipnN (b - a) (skipnN a xs)).
    - unfold firstnN, skipnN. now rewrite firstn_skipn, firstn_skipn.
    - rewrite skipnN_skipnN. f_equal. lia. }
  unfold swapN. rewrite (Hn i Hi), (Hn j Hj).
  destruct (nthN xs (a + i)) as [x|]; [|now rewrite <- Hx].
  destruct (nthN xs (a + j)) as [y|]; [|now rewrite <- Hx].
  assert (Hset : forall k (v : payload) zs, k < lenN zs -> forall pre post, lenN pre = a ->
    list_set (pre ++ zs ++ post) (N.to_nat (a + k)) v = pre ++ list_set zs (N.to_nat k) v ++ post).
  { intros k v zs Hk pre post Hpre.
    replace (N.to_nat (a + k)) with (List.length pre + N.to_nat k)%nat by (unfold lenN in *; lia).
    rewrite list_set_app_r. f_equal.
    apply list_set_app_l. unfold lenN in *. lia. }
  rewrite Hx at 3. rewrite Hset by (rewrite ?lenN_firstnN; lia).
  now rewrite Hset by (rewrite ?lenN_list_set, ?lenN_firstnN; lia).
Qed.

Lemma c24_element_write_fact :
  forall (V U : Type) (P : profile) (G : tenv), wf_tenv G ->
  forall t xs (vt : V) i t' v (vt' : U),
  slice_ok G t xs -> i < lenN xs ->
  slm_get_mut_copy P i (copy_ref_new G t' v vt') (sl_from_slice G t xs vt) =
    (if t' =? t then (Ret true, sl_from_slice G t (list_set xs (N.to_nat i) v) vt)
     else (Ret false, sl_from_slice G t xs vt)) /\
  slm_set_as P G t' i v (sl_from_slice G t xs vt) =
    (if t' =? t then (Ret true, sl_from_slice G t (list_set xs (N.to_nat i) v) vt)
     else (Ret false, sl_from_slice G t xs vt)).
Proof.
  intros V U P G HG t xs vt i t' v vt' Hok Hi. pose proof (slice_srep G t xs vt Hok) as HS.
  destruct (nthN xs i) as [x|] eqn:Ex.
  - rewrite (slm_get_mut_copy_rep P G HG t _ xs i x t' v vt' HS Ex).
    rewrite (slm_set_as_rep P G HG t _ xs t' i v HS). apply N.ltb_lt in Hi. rewrite Hi.
    now destruct (t' =? t).
  - exfalso. unfold nthN in Ex. apply nth_error_None in Ex. unfold lenN in Hi. lia.
Qed.

(** What "the list with item [i] replaced" means. *)
Lemma list_set_meaning_fact :
  forall (A : Type) (xs : list A) i v k,
  nthN (list_set xs (N.to_nat i) v) k =
    (if (k =? i) && (i <? lenN xs) then Some v else nthN xs k) /\
  lenN (list_set xs (N.to_nat i) v) = lenN xs.
Proof.
  intros A xs i v k. split; [|apply lenN_list_set].
  unfold nthN. rewrite nth_error_list_set.
  destruct (N.eqb_spec k i) as [->|Hne].
  - rewrite Nat.eqb_refl. cbn [andb].
    destruct (i <? lenN xs) eqn:El.
    + apply N.ltb_lt in El. destruct (nth_error xs (N.to_nat i)) eqn:E; [reflexivity|].
      apply nth_error_None in E. unfold lenN in El. lia.
    + apply N.ltb_ge in El. destruct (nth_error xs (N.to_nat i)) eqn:E; [|reflexivity].
      assert (H : nth_error xs (N.to_nat i) <> None) by congruence. apply nth_error_Some in H.
      unfold lenN in El. lia.
  - cbn [andb]. destruct (Nat.eqb_spec (N.to_nat i) (N.to_nat k)) as [E|]; [|reflexivity]. lia.
Qed.

(** What "exchanged" means. *)
Lemma swap_meaning_fact :
  forall (A : Type) (xs : list A) i j k,
  i < lenN xs -> j < lenN xs ->
  nthN (swapN i j xs) k = nthN xs (if k =? i then j else if k =? j then i else k) /\
  lenN (swapN i j xs) = lenN xs.
Proof.
  intros A xs i j k Hi Hj.
  assert (Hs : forall m, m < lenN xs -> exists x, nthN xs m = Some x).
  { intros m Hm. unfold nthN. destruct (nth_error xs (N.to_nat m)) eqn:E; [eauto|].
    apply nth_error_None in E. unfold lenN in Hm. lia. }
  destruct (Hs i Hi) as [x Ex], (Hs j Hj) as [y Ey]. unfold swapN. rewrite Ex, Ey.
  split; [|now rewrite !lenN_list_set].
  destruct (list_set_meaning_fact A (list_set xs (N.to_nat i) y) j x k) as [-> _].
  destruct (list_set_meaning_fact A xs i y k) as [-> ->].
  apply N.ltb_lt in Hi, Hj. rewrite Hi, Hj, !andb_true_r.
  destruct (N.eqb_spec k j), (N.eqb_spec k i); subst; auto; congruence.
Qed.

(** ** C44 *)

Lemma c44_copy_fact :
  forall (V U : Type) (G : tenv) t x (vt : V) t' v (vt' : U),
  wf_tenv G ->
  cm_copy (copy_mut_new G t x vt) (copy_ref_new G t' v vt') =
  Ret (if t =? t' then Some (copy_mut_new G t v vt) else None).
Proof.
  intros V U G t x vt t' v vt' HG. unfold copy_mut_new.
  rewrite (cm_copy_elem G t vt x t' v vt'). rewrite (N.eqb_sym t t').
  now destruct (t' =? t).
Qed.

Lemma c44_swap_fact :
  forall (V U : Type) (G : tenv) t x (vt : V) t' y (vt' : U),
  cm_swap (copy_mut_new G t x vt) (copy_mut_new G t' y vt') =
  if t =? t' then (Ret tt, copy_mut_new G t y vt, copy_mut_new G t' x vt')
  else (Ret tt, copy_mut_new G t x vt, copy_mut_new G t' y vt').
Proof.
  intros V U G t x vt t' y vt'. unfold cm_swap, copy_mut_new.
  cbn [cm_type_id cm_bytes cm_alignment]. destruct (N.eqb_spec t t') as [<-|]; [|reflexivity].
  rewrite !enc_length, !N.eqb_refl. reflexivity.
Qed.

(** What a mutable value reference reads as. *)
Lemma c44_reads_fact :
  forall (V : Type) (G : tenv) t x (vt : V) t',
  wf_tenv G -> t_size (G t) <> 0 ->
  cm_downcast G t' (copy_mut_new G t x vt) = Ret (if t' =? t then Some x else None) /\
  cm_downcast_write G t' 0%Z (copy_mut_new G t x vt) =
    Ret (if t' =? t then Some (copy_mut_new G t 0%Z vt) else None).
Proof.
  intros V G t x vt t' HG Hz. unfold cm_downcast, cm_downcast_write, copy_mut_new.
  cbn [cm_type_id cm_bytes]. rewrite (N.eqb_sym t t'). destruct (N.eqb_spec t' t) as [->|]; [|now split].
  unfold from_bytes, assert_. rewrite enc_length, N.eqb_refl. cbn [obind].
  rewrite read_val_enc by (intros ?; tauto). now split.
Qed.

(** ** C54 *)

Lemma c54_vec_raw_parts_fact :
  forall (V : Type) (b : veccopy V),
  let '(d, vt) := vc_into_raw_parts b in vc_from_raw_parts d vt = b.
Proof. intros V [d vt]. reflexivity. Qed.

Lemma c54_slice_raw_parts_fact :
  forall (V : Type) (s : slicecopy V),
  let '(data, elem, vt) := sl_into_raw_parts s in sl_from_raw_parts data elem vt = s.
Proof. intros V [data elem vt]. reflexivity. Qed.

(** ** C55 *)

Lemma c55_slice_get_partial_fact :
  forall (V : Type) (P : profile) (G : tenv), wf_tenv G ->
  forall t xs (vt : V) i,
  slice_ok G t xs ->
  (forall v, nthN xs i = Some v ->
     exists r off m, sl_get P i (sl_from_slice G t xs vt) = Ret r /\ refers G t r v /\
       slm_get_mut P i (sl_from_slice G t xs vt) = Ret (off, m) /\ refers G t (cr_of_cm m) v /\
       off = i * t_size (G t)) /\
  (lenN xs <= i -> debug_assertions P = true \/ fits P (i + 1) (t_size (G t)) ->
     is_panic (sl_get P i (sl_from_slice G t xs vt)) /\
     is_panic (slm_get_mut P i (sl_from_slice G t xs vt))).
Proof.
  intros V P G HG t xs vt i Hok. pose proof (slice_srep G t xs vt Hok) as HS. split.
  - intros v Hv. do 3 eexists. csplit.
    + apply (sl_get_rep P G HG t _ xs i v HS Hv).
    + apply elem_refers, Hok.
    + apply (slm_get_mut_rep P G HG t _ xs i v HS Hv).
    + apply (elem_refers G t vt v), Hok.
    + reflexivity.
  - intros Hi Hp. destruct (sl_get_out P G HG t _ xs i HS Hi Hp) as (p & -> & ->). now split.
Qed.

Lemma c55_typed_slice_get_fact :
  forall (V : Type) (P : profile) (G : tenv), wf_tenv G ->
  forall t xs (vt : V) t' i,
  slice_ok G t xs ->
  sl_get_as P G t' i (sl_from_slice G t xs vt) =
  match nthN xs i with
  | Some v => Ret (if t' =? t then Some v else None)
  | None => Panic PAssert
  end.
Proof.
  intros V P G HG t xs vt t' i Hok. now apply sl_get_as_rep, slice_srep.
Qed.
