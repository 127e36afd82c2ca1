(** * WrapFacts: positions that do not fit into memory, in builds without checks (C83) *)

From Verif Require Export SliceFacts.

(** A build in which neither arithmetic nor debug assertions are checked. *)
Definition unchecked (P : profile) : Prop := debug_assertions P = false /\ overflow_checks P = false.

(** A result that is either a panic or the result of another build. *)
Definition panics_or {A} (o o' : outcome A) : Prop := is_panic o \/ o = o'.
(** The same for calls on a mutable slice [s], which is as it was after a panic. *)
Definition panics_or_on {A S} (s : S) (o o' : outcome A * S) : Prop :=
  (exists p, o = (Panic p, s)) \/ o = o'.

(** ** Arithmetic *)

Lemma umul_release P a b : umul P a b = Panic POverflow \/ umul P a b = umul release a b.
Proof.
  unfold umul, release. destruct (_ <=? _); [now right|]. destruct (overflow_checks P); [now left|now right].
Qed.
Lemma uadd_release P a b : uadd P a b = Panic POverflow \/ uadd P a b = uadd release a b.
Proof.
  unfold uadd, release. destruct (_ <=? _); [now right|]. destruct (overflow_checks P); [now left|now right].
Qed.
Lemma umul_ret P a b : unchecked P -> umul P a b = Ret (wrap (a * b)).
Proof.
  intros [_ H]. unfold umul. destruct (_ <=? _) eqn:E; [|now rewrite H].
  apply N.leb_le in E. unfold wrap, usize_max in *. rewrite N.mod_small; [reflexivity|].
  assert (2 ^ 64 <> 0) by (vm_compute; discriminate). lia.
Qed.
Lemma uadd_ret P a b : unchecked P -> uadd P a b = Ret (wrap (a + b)).
Proof.
  intros [_ H]. unfold uadd. destruct (_ <=? _) eqn:E; [|now rewrite H].
  apply N.leb_le in E. unfold wrap, usize_max in *. rewrite N.mod_small; [reflexivity|].
  assert (2 ^ 64 <> 0) by (vm_compute; discriminate). lia.
Qed.

Lemma index_byte_range_release P es i :
  index_byte_range P es i = Panic POverflow \/ index_byte_range P es i = index_byte_range release es i.
Proof.
  unfold index_byte_range. destruct (umul_release P i es) as [->| ->]; [now left|].
  destruct (umul release i es) as [a| | |]; cbn [obind]; try now right.
  destruct (uadd_release P i 1) as [->| ->]; [now left|].
  destruct (uadd release i 1) as [b| | |]; cbn [obind]; try now right.
  destruct (umul_release P b es) as [->| ->]; [now left|now right].
Qed.

Section Mod.
Context (m sz : N).
Context (Hm : m * sz = 2 ^ 64).

Lemma mod_parts : m <> 0 /\ sz <> 0.
Proof using Hm. assert (2 ^ 64 <> 0) by (vm_compute; discriminate). split; intros ->; lia. Qed.

Lemma wrap_mul k : wrap (k * sz) = (k mod m) * sz.
Proof using Hm.
  destruct mod_parts. unfold wrap. rewrite <- Hm. now rewrite N.mul_mod_distr_r.
Qed.

Lemma mod_fits k : (k mod m) * sz <= usize_max.
Proof using Hm.
  destruct mod_parts as [H1 H2]. pose proof (N.mod_lt k m H1). unfold usize_max. nia.
Qed.

Lemma wrap_mod k : wrap k mod m = k mod m.
Proof using Hm.
  destruct mod_parts as [H1 H2]. unfold wrap. rewrite <- Hm, N.mul_comm, (N.mul_comm sz m).
  rewrite N.mod_mul_r by assumption.
  rewrite (N.mul_comm m ((k / m) mod sz)), N.mod_add by assumption. now rewrite N.mod_mod.
Qed.

Lemma umul_mod P k : unchecked P -> umul P k sz = umul P (k mod m) sz.
Proof using Hm.
  intros H. rewrite !umul_ret by exact H. rewrite !wrap_mul. destruct mod_parts. now rewrite N.mod_mod.
Qed.

Lemma ibr_mod P i : unchecked P ->
  index_byte_range P sz i =
  Ret ((i mod m) * sz, if (i mod m + 1 <? m) then (i mod m + 1) * sz else 0).
Proof using Hm.
  intros H. unfold index_byte_range. rewrite umul_ret, uadd_ret by exact H. cbn [obind].
  rewrite umul_ret by exact H. cbn [obind]. rewrite !wrap_mul, wrap_mod.
  destruct mod_parts as [H1 H2]. f_equal. f_equal.
  rewrite N.add_mod by exact H1. pose proof (N.mod_lt i m H1) as Hlt. generalize dependent (i mod m). intros a Hlt.
  destruct (N.ltb_spec (a + 1) m) as [Hs|Hs].
  - rewrite (N.mod_small 1) by lia. now rewrite N.mod_small by lia.
  - assert (E : a = m - 1) by lia. rewrite E.
    destruct (N.eq_dec m 1) as [E1|E1]; [rewrite E1; reflexivity|].
    rewrite (N.mod_small 1) by lia. replace (m - 1 + 1) with m by lia. now rewrite N.mod_same, N.mul_0_l.
Qed.

End Mod.

(** ** Every build panics or does what a release build does *)

Lemma c83_any_build_fact :
  forall (V U : Type) (P : profile) (G : tenv), wf_tenv G ->
  forall t xs (vt : V), slice_ok G t xs ->
  let s := sl_from_slice G t xs vt in
  (forall i, panics_or (sl_get P i s) (sl_get release i s)) /\
  (forall i, panics_or (slm_get_mut P i s) (slm_get_mut release i s)) /\
  (forall i (r : copy_ref U), panics_or_on s (slm_get_mut_copy P i r s) (slm_get_mut_copy release i r s)) /\
  (forall k, panics_or (sl_split_at P k s) (sl_split_at release k s)) /\
  (forall k, panics_or (sl_chunks_exact P k s) (sl_chunks_exact release k s)) /\
  (forall r, panics_or (sl_subslice P r s) (sl_subslice release r s)) /\
  (forall k, panics_or_on s (slm_rotate_left P k s) (slm_rotate_left release k s)) /\
  (forall k, panics_or_on s (slm_rotate_right P k s) (slm_rotate_right release k s)) /\
  (forall i j, panics_or_on s (slm_swap P i j s) (slm_swap release i j s)).
Proof.
  intros V U P G HG t xs vt Hok s. pose proof (slice_srep G t xs vt Hok) as HS. fold s in HS.
  assert (Hdb : forall i, sl_bounds_debug P i s = Panic PDebugAssert \/ sl_bounds_debug P i s = Ret tt).
  { intros i. unfold sl_bounds_debug. destruct (debug_assertions P) eqn:ED; [|now right].
    rewrite (sl_len_rep P G HG t s xs HS). cbn [obind]. unfold debug_assert. rewrite ED.
    destruct (_ <? _); [now right|now left]. }
  assert (Hdr : forall i, sl_bounds_debug release i s = Ret tt) by reflexivity.
  assert (Hgm : forall i, panics_or (slm_get_mut P i s) (slm_get_mut release i s)).
  { intros i. unfold slm_get_mut. rewrite Hdr. destruct (Hdb i) as [->| ->]; [left; exact I|].
    cbn [obind]. destruct (index_byte_range_release P (sl_element_size s) i) as [->| ->];
      [left; exact I|now right]. }
  csplit.
  - intros i. unfold sl_get. rewrite Hdr. destruct (Hdb i) as [->| ->]; [left; exact I|].
    cbn [obind]. destruct (index_byte_range_release P (sl_element_size s) i) as [->| ->];
      [left; exact I|now right].
  - exact Hgm.
  - intros i r. unfold slm_get_mut_copy. destruct (Hgm i) as [Hp| ->]; [|now right].
    destruct (slm_get_mut P i s); try contradiction. left. eexists. reflexivity.
  - intros k. unfold sl_split_at. destruct (umul_release P k (num_bytes (sl_elem s))) as [->| ->];
      [left; exact I|now right].
  - intros k. unfold sl_chunks_exact. destruct (umul_release P (num_bytes (sl_elem s)) k) as [->| ->];
      [left; exact I|now right].
  - intros r. unfold sl_subslice.
    assert (Hsr : forall z, scale_range P r z = Panic POverflow \/ scale_range P r z = scale_range release r z).
    { intros z. destruct r as [a b|b|a| |a b ex|b]; cbn [scale_range];
        try (destruct (umul_release P a z) as [->| ->]; [now left|]);
        try (destruct (umul release a z); cbn [obind]; try now right);
        try (destruct (umul_release P b z) as [->| ->]; [now left|]); now right. }
    destruct (Hsr (sl_element_size s)) as [->| ->]; [left; exact I|now right].
  - intros k. unfold slm_rotate_left. destruct (umul_release P k (sl_element_size s)) as [->| ->];
      [left; eexists; reflexivity|now right].
  - intros k. unfold slm_rotate_right. destruct (umul_release P k (sl_element_size s)) as [->| ->];
      [left; eexists; reflexivity|now right].
  - intros i j. unfold slm_swap. destruct (i =? j); [now right|]. cbn zeta.
    destruct (index_byte_range_release P (sl_element_size s) 0) as [->| ->]; [left; eexists; reflexivity|].
    destruct (index_byte_range release (sl_element_size s) 0); cbn [obind]; try now right.
    destruct (index_byte_range_release P (sl_element_size s) (if i <? j then i else j)) as [->| ->];
      [left; eexists; reflexivity|].
    destruct (index_byte_range release (sl_element_size s) (if i <? j then i else j)); cbn [obind]; try now right.
    destruct (umul_release P (sl_element_size s) (if i <? j then j else i)) as [->| ->];
      [left; eexists; reflexivity|]. now right.
Qed.

(** ** Elements whose size is a power of two: positions are reduced, elements stay whole *)

Section Exact.
Context {V : Type} (P : profile) (G : tenv) (HG : wf_tenv G).
Context (t : tyid) (xs : list payload) (vt : V) (m : N).
Context (HP : unchecked P) (Hok : slice_ok G t xs) (Hm : m * t_size (G t) = 2 ^ 64).
Let s := sl_from_slice G t xs vt.

Lemma len_below : lenN xs < m.
Proof using Hok Hm.
  destruct Hok as [Hz Hl]. assert (isize_max < 2 ^ 64) by (vm_compute; reflexivity). nia.
Qed.

Lemma wfit k : fits P (k mod m) (t_size (G t)).
Proof using Hm. left. now apply mod_fits. Qed.

Lemma size_eq : sl_element_size s = t_size (G t).
Proof using HG Hok. apply (srep_size G HG t s xs), slice_srep, Hok. Qed.
Lemma nb_eq : num_bytes (sl_elem s) = t_size (G t).
Proof using HG Hok. apply size_eq. Qed.

Lemma get_wrapped i :
  sl_get P i s = match nthN xs (i mod m) with
                 | Some v => Ret (elem_ref G t vt v) | None => Panic PIndex end /\
  slm_get_mut P i s = match nthN xs (i mod m) with
                      | Some v => Ret ((i mod m) * t_size (G t), elem_mut G t vt v)
                      | None => Panic PIndex end.
Proof using HG HP Hok Hm.
  pose proof (slice_srep G t xs vt Hok) as HS. fold s in HS. pose proof len_below as Hl.
  destruct Hok as [Hz _]. destruct (mod_parts m _ Hm) as [Hm0 _]. pose proof (N.mod_lt i m Hm0).
  unfold sl_get, slm_get_mut, sl_bounds_debug. destruct HP as [HP1 HP2]. rewrite HP1. cbn [obind].
  rewrite size_eq, (ibr_mod m _ Hm P i HP). cbn [obind fst snd].
  destruct (nthN xs (i mod m)) as [v|] eqn:Hn.
  - pose proof (nthN_some _ _ _ Hn) as Hi. rewrite (proj2 (N.ltb_lt _ _)) by lia.
    rewrite (srep_data _ _ _ _ HS), (index_elem G t xs _ v Hn Hz). cbn [obind]. split; reflexivity.
  - assert (Hge : lenN xs <= i mod m).
    { unfold nthN in Hn. apply nth_error_None in Hn. unfold lenN. lia. }
    assert (Hm1 : 1 < m).
    { pose proof (wf_size_max _ (wf_types G HG t)).
      assert (isize_max < 2 ^ 64) by (vm_compute; reflexivity). nia. }
    assert (HX : index_range (sl_data s) (i mod m * t_size (G t))
                   (if i mod m + 1 <? m then (i mod m + 1) * t_size (G t) else 0) = Panic PIndex).
    { unfold index_range. rewrite (srep_data _ _ _ _ HS), encs_length.
      destruct (N.ltb_spec (i mod m + 1) m) as [Hs|Hs];
        [rewrite (proj2 (N.leb_gt ((i mod m + 1) * t_size (G t)) (lenN xs * t_size (G t)))) by nia;
         now rewrite andb_false_r|].
      rewrite (proj2 (N.leb_gt (i mod m * t_size (G t)) 0)) by nia. reflexivity. }
    rewrite HX. split; reflexivity.
Qed.

Lemma umul_wrapped k : umul P k (t_size (G t)) = Ret ((k mod m) * t_size (G t)).
Proof using HP Hm. rewrite umul_ret by exact HP. now rewrite (wrap_mul m). Qed.

Lemma umul_wrapped' k : umul P (t_size (G t)) k = Ret (t_size (G t) * (k mod m)).
Proof using HP Hm.
  rewrite umul_ret by exact HP. rewrite N.mul_comm, (wrap_mul m) by exact Hm. now rewrite N.mul_comm.
Qed.

Lemma split_wrapped k : sl_split_at P k s = sl_split_at P (k mod m) s.
Proof using HG HP Hok Hm.
  unfold sl_split_at. rewrite nb_eq. now rewrite (umul_mod m _ Hm P k HP).
Qed.

Lemma rotate_wrapped k :
  slm_rotate_left P k s = slm_rotate_left P (k mod m) s /\
  slm_rotate_right P k s = slm_rotate_right P (k mod m) s.
Proof using HG HP Hok Hm.
  unfold slm_rotate_left, slm_rotate_right. rewrite size_eq. now rewrite (umul_mod m _ Hm P k HP).
Qed.

(** The range with its ends reduced. *)
Definition reduced (r : range) : range :=
  match r with
  | RRange a b => RRange (a mod m) (b mod m)
  | RTo b => RTo (b mod m)
  | RFrom a => RFrom (a mod m)
  | RFull => RFull
  | RIncl a b ex => RIncl (a mod m) (b mod m) ex
  | RToIncl b => RToIncl (b mod m)
  end.

Lemma subslice_wrapped r : sl_subslice P r s = sl_subslice P (reduced r) s.
Proof using HG HP Hok Hm.
  unfold sl_subslice. rewrite size_eq.
  assert (E : scale_range P r (t_size (G t)) = scale_range P (reduced r) (t_size (G t))).
  { destruct r; cbn [scale_range reduced]; now rewrite <- ?(umul_mod m _ Hm P _ HP). }
  now rewrite E.
Qed.

Lemma chunks_wrapped k : sl_chunks_exact P k s = sl_chunks_exact P (k mod m) s.
Proof using HG HP Hok Hm.
  unfold sl_chunks_exact. rewrite nb_eq, !umul_wrapped'. destruct (mod_parts m _ Hm). now rewrite N.mod_mod.
Qed.

Lemma swap_sym i j : slm_swap P i j s = slm_swap P j i s.
Proof using.
  clear HP Hok Hm. unfold slm_swap. rewrite (N.eqb_sym i j). destruct (N.eqb_spec j i) as [|Hne]; [reflexivity|].
  destruct (N.ltb_spec i j), (N.ltb_spec j i); try reflexivity; lia.
Qed.

Lemma swap_wrapped i j : i < j ->
  slm_swap P i j s =
  if (i mod m <? j mod m) && (j mod m <? lenN xs)
  then (Ret tt, sl_from_slice G t (swapN (i mod m) (j mod m) xs) vt)
  else (Panic PIndex, s).
Proof using HG HP Hok Hm.
  intros Hij. pose proof (slice_srep G t xs vt Hok) as HS. fold s in HS. pose proof len_below as Hl.
  pose proof (proj1 Hok) as Hz. destruct (mod_parts m _ Hm) as [Hm0 _].
  pose proof (N.mod_lt i m Hm0) as Hi. pose proof (N.mod_lt j m Hm0) as Hj.
  assert (Hm1 : 1 < m).
  { pose proof (wf_size_max _ (wf_types G HG t)).
    assert (isize_max < 2 ^ 64) by (vm_compute; reflexivity). nia. }
  destruct ((i mod m <? j mod m) && (j mod m <? lenN xs)) eqn:E.
  - apply andb_true_iff in E as [E1 E2]. apply N.ltb_lt in E1, E2.
    change (sl_from_slice G t (swapN (i mod m) (j mod m) xs) vt) with (sl_vals G t s (swapN (i mod m) (j mod m) xs)).
    rewrite <- (slm_swap_rep P G HG t s xs (i mod m) (j mod m) HS) by lia.
    unfold slm_swap. rewrite (proj2 (N.eqb_neq i j)) by lia.
    rewrite (proj2 (N.eqb_neq (i mod m) (j mod m))) by lia.
    rewrite (proj2 (N.ltb_lt i j)) by lia. rewrite (proj2 (N.ltb_lt (i mod m) (j mod m))) by lia.
    rewrite size_eq, !(ibr_mod m _ Hm P _ HP), !umul_wrapped'. now rewrite !N.mod_mod.
  - unfold slm_swap. rewrite (proj2 (N.eqb_neq i j)) by lia.
    rewrite (proj2 (N.ltb_lt i j)) by lia. rewrite size_eq, !(ibr_mod m _ Hm P _ HP), !umul_wrapped'.
    cbn [obind fst snd]. rewrite (N.mod_small 0) by lia. rewrite (srep_data _ _ _ _ HS), encs_length.
    rewrite (proj2 (N.ltb_lt (0 + 1) m)) by lia.
    generalize dependent (i mod m). intros a Ha. generalize dependent (j mod m). intros b Hb E.
    destruct (N.leb_spec (t_size (G t) * b) (lenN xs * t_size (G t))) as [Hin|]; [|reflexivity].
    assert (Hble : b <= lenN xs) by nia.
    assert (HL : forall z, a * t_size (G t) > z \/ t_size (G t) * b < z ->
      index_range (firstnN (t_size (G t) * b) (encs G t xs)) (a * t_size (G t)) z = Panic PIndex).
    { intros z Hzz. unfold index_range. rewrite lenN_firstnN, encs_length.
      destruct (N.leb_spec (a * t_size (G t)) z); [|reflexivity].
      destruct (N.leb_spec z (N.min (t_size (G t) * b) (lenN xs * t_size (G t)))); [lia|reflexivity]. }
    destruct (N.ltb_spec (a + 1) m) as [Hs|Hs]; [|rewrite HL by nia; reflexivity].
    destruct (N.lt_ge_cases a b) as [Hab|Hab]; [|rewrite HL by nia; reflexivity].
    rewrite (proj2 (N.ltb_lt a b) Hab) in E. cbn [andb] in E. apply N.ltb_ge in E.
    assert (HRr : index_range (skipnN (t_size (G t) * b) (encs G t xs)) (0 * t_size (G t))
                    ((0 + 1) * t_size (G t)) = Panic PIndex).
    { apply index_range_out. rewrite lenN_skipnN, encs_length. nia. }
    rewrite HRr. unfold index_range. destruct (_ && _); reflexivity.
Qed.

End Exact.

(** ** C83 *)

Lemma c83_release_partial_fact :
  forall (V : Type) (P : profile) (G : tenv), wf_tenv G -> unchecked P ->
  forall t xs (vt : V) m, slice_ok G t xs -> m * t_size (G t) = 2 ^ 64 ->
  let s := sl_from_slice G t xs vt in
  let sub ys := sl_from_slice G t ys vt in
  (forall i, match nthN xs (i mod m) with
     | Some v => exists r off r', sl_get P i s = Ret r /\ refers G t r v /\
                   slm_get_mut P i s = Ret (off, r') /\ refers G t (cr_of_cm r') v /\
                   off = (i mod m) * t_size (G t)
     | None => is_panic (sl_get P i s) /\ is_panic (slm_get_mut P i s)
     end) /\
  (forall k, if k mod m <=? lenN xs
     then exists off, sl_split_at P k s = Ret (sub (firstn (N.to_nat (k mod m)) xs), off,
                                               sub (skipn (N.to_nat (k mod m)) xs))
     else is_panic (sl_split_at P k s)) /\
  (forall k, if k mod m =? 0 then is_panic (sl_chunks_exact P k s)
     else exists gs, groups (N.to_nat (k mod m)) xs gs /\ sl_chunks_exact P k s = Ret (map sub gs)) /\
  (forall a b, if (a mod m <=? b mod m) && (b mod m <=? lenN xs)
     then exists off, sl_subslice P (RRange a b) s =
            Ret (off, sub (firstn (N.to_nat (b mod m - a mod m)) (skipn (N.to_nat (a mod m)) xs)))
     else is_panic (sl_subslice P (RRange a b) s)) /\
  (forall k, if k mod m <=? lenN xs
     then slm_rotate_left P k s = (Ret tt, sub (rotl (k mod m) xs)) /\
          slm_rotate_right P k s = (Ret tt, sub (rotr (k mod m) xs))
     else exists p, slm_rotate_left P k s = (Panic p, s) /\ slm_rotate_right P k s = (Panic p, s)) /\
  (forall i j, i < j ->
     slm_swap P j i s = slm_swap P i j s /\
     if (i mod m <? j mod m) && (j mod m <? lenN xs)
     then slm_swap P i j s = (Ret tt, sub (swapN (i mod m) (j mod m) xs))
     else exists p, slm_swap P i j s = (Panic p, s)).
Proof.
  intros V P G HG HP t xs vt m Hok Hm s sub. pose proof (slice_srep G t xs vt Hok) as HS. fold s in HS.
  pose proof (proj1 Hok) as Hz. csplit.
  - intros i. destruct (get_wrapped P G HG t xs vt m HP Hok Hm i) as [E1 E2]. fold s in E1, E2.
    rewrite E1, E2. destruct (nthN xs (i mod m)) as [v|]; [|split; exact I].
    do 3 eexists. csplit; [reflexivity|now apply elem_refers|reflexivity| |reflexivity].
    now apply (elem_refers G t vt v).
  - intros k. pose proof (split_wrapped P G HG t xs vt m HP Hok Hm k) as E. fold s in E. rewrite E.
    destruct (c22_split_at_partial_fact V P G HG t xs vt (k mod m) Hok (wfit P G t m Hm k)) as [H1 H2].
    destruct (N.leb_spec (k mod m) (lenN xs)); [now apply H1|now apply H2].
  - intros k. pose proof (chunks_wrapped P G HG t xs vt m HP Hok Hm k) as E. fold s in E. rewrite E.
    destruct (N.eqb_spec (k mod m) 0) as [E0|E0].
    + rewrite E0. apply (c22_zero_chunks_fact V P G HG t xs vt Hok).
    + apply (c22_chunks_exact_partial_fact V P G HG t xs vt (k mod m) Hok); [now apply N.neq_0_lt_0|].
      now apply mod_fits.
  - intros a b. pose proof (subslice_wrapped P G HG t xs vt m HP Hok Hm (RRange a b)) as E. fold s in E. rewrite E.
    cbn [reduced].
    pose proof (c21_subslice_partial_fact V P G HG t xs vt (RRange (a mod m) (b mod m)) Hok
                  (conj (wfit P G t m Hm a) (wfit P G t m Hm b)) (or_introl I)) as H.
    unfold index_with, range_bounds in H.
    destruct ((a mod m <=? b mod m) && (b mod m <=? lenN xs)); cbn [obind fst snd] in H; [|exact H].
    eexists. exact H.
  - intros k. destruct (rotate_wrapped P G HG t xs vt m HP Hok Hm k) as [E1 E2]. fold s in E1, E2.
    rewrite E1, E2. destruct (N.leb_spec (k mod m) (lenN xs)) as [H|H].
    + now rewrite (slm_rotate_left_rep P G HG t s xs _ HS H), (slm_rotate_right_rep P G HG t s xs _ HS H).
    + apply (slm_rotate_out P G HG t s xs _ HS H). apply (wfit P G t m Hm).
  - intros i j Hij. split; [apply (swap_sym P G t xs vt)|].
    pose proof (swap_wrapped P G HG t xs vt m HP Hok Hm i j Hij) as E. fold s in E. rewrite E.
    destruct ((i mod m <? j mod m) && (j mod m <? lenN xs)); [reflexivity|eauto].
Qed.

(** ** Elements of any other size: positions reach into the middle of elements *)

(** A position whose byte offset is, after wrapping around, inside the first element. *)
Lemma torn_position sz :
  0 < sz -> sz <= isize_max -> ~ (exists m, m * sz = 2 ^ 64) ->
  exists k g, k <= usize_max /\ 0 < g /\ g < sz /\ wrap (k * sz) = g /\
              wrap (wrap (k + 1) * sz) = g + sz.
Proof.
  intros Hz Hs Hn. set (M := 2 ^ 64) in *. assert (HM : M <> 0) by (vm_compute; discriminate).
  assert (Hs2 : 2 * isize_max < M) by (vm_compute; reflexivity).
  assert (Hg : (N.gcd sz M | sz) /\ (N.gcd sz M | M)) by (split; [apply N.gcd_divide_l|apply N.gcd_divide_r]).
  destruct (N.gcd_bezout_pos sz M Hz) as (a & b & Hab).
  set (g := N.gcd sz M) in *. destruct Hg as [[q Hq] [q' Hq']].
  assert (Hg0 : g <> 0) by (intros E; rewrite E, N.mul_0_r in Hq; lia).
  assert (Hgs : g < sz).
  { destruct (N.eq_dec q 1) as [E|E]; [exfalso; apply Hn; exists q'; rewrite Hq; rewrite E; lia|].
    assert (q <> 0) by (intros E0; rewrite E0 in Hq; lia). nia. }
  exists (a mod M), g. csplit; try lia.
  - pose proof (N.mod_lt a M HM). unfold usize_max. fold M. lia.
  - unfold wrap. fold M. rewrite N.mul_mod_idemp_l by exact HM. rewrite Hab.
    rewrite N.mod_add by exact HM. apply N.mod_small. lia.
  - unfold wrap. fold M. rewrite N.mul_mod_idemp_l by exact HM.
    rewrite N.mul_add_distr_r, N.mul_1_l.
    rewrite <- N.add_mod_idemp_l by exact HM. rewrite N.mul_mod_idemp_l by exact HM. rewrite Hab.
    rewrite N.mod_add by exact HM. rewrite N.add_mod_idemp_l by exact HM. apply N.mod_small. lia.
Qed.

Lemma torn_bytes G t x xs g :
  g < t_size (G t) -> exists rest, skipnN g (encs G t (x :: xs)) = Frag t x (N.to_nat g) :: rest.
Proof.
  intros Hg. unfold skipnN, encs. cbn [flat_map]. rewrite skipn_app.
  assert (E : skipn (N.to_nat g) (enc G t x) =
              map (Frag t x) (seq (N.to_nat g) (N.to_nat (t_size (G t)) - N.to_nat g))).
  { unfold enc. rewrite skipn_map. f_equal.
    generalize (N.to_nat (t_size (G t))). intros n.
    assert (H : forall i j l, skipn i (seq j l) = seq (j + i) (l - i)).
    { clear. induction i as [|i IH]; intros j [|l]; cbn; rewrite ?Nat.add_0_r, ?Nat.sub_0_r; try reflexivity.
      rewrite IH. f_equal. lia. }
    now rewrite H. }
  rewrite E. destruct (N.to_nat (t_size (G t)) - N.to_nat g)%nat eqn:El; [lia|]. cbn [seq map app].
  eexists. reflexivity.
Qed.

Lemma torn_read G t v g rest : 0 < g -> read_val G t (Frag t v (N.to_nat g) :: rest) = UB UbValue.
Proof.
  intros Hg. unfold read_val, dec. unfold enc.
  destruct (N.to_nat (t_size (G t))) as [|n]; cbn [seq map bytes_eqb]; [reflexivity|].
  assert (E : mbyte_eqb (Frag t v (N.to_nat g)) (Frag t v 0) = false).
  { cbn [mbyte_eqb]. destruct (N.to_nat g) eqn:E; [lia|]. cbn [Nat.eqb]. now rewrite andb_false_r. }
  rewrite E. reflexivity.
Qed.

Lemma torn_prefix {A} n (x : A) l : 0 < n -> exists l', firstnN n (x :: l) = x :: l'.
Proof. intros H. unfold firstnN. destruct (N.to_nat n) eqn:E; [lia|]. cbn. eauto. Qed.

Lemma torn_read_vals G t n v g rest :
  0 < g -> 0 < t_size (G t) -> t_size (G t) <= lenN (Frag t v (N.to_nat g) :: rest) ->
  read_vals G t (S n) (Frag t v (N.to_nat g) :: rest) = UB UbValue.
Proof.
  intros Hg Hz Hl. cbn [read_vals]. rewrite (proj2 (N.ltb_ge _ _) Hl).
  destruct (torn_prefix (t_size (G t)) (Frag t v (N.to_nat g)) rest Hz) as [l ->].
  now rewrite torn_read.
Qed.

Lemma c83_torn_refuted_fact :
  forall (V : Type) (P : profile) (G : tenv), wf_tenv G -> unchecked P ->
  forall t xs (vt : V), slice_ok G t xs -> 2 <= lenN xs ->
  ~ (exists m, m * t_size (G t) = 2 ^ 64) ->
  let s := sl_from_slice G t xs vt in
  exists k r off r' s',
    k <= usize_max /\
    sl_get P k s = Ret r /\ cr_downcast G t r = UB UbValue /\
    slm_get_mut P k s = Ret (off, r') /\ cm_downcast G t r' = UB UbValue /\
    slm_rotate_left P k s = (Ret tt, s') /\ sl_as_slice P G t s' = UB UbValue.
Proof.
  intros V P G HG HP t xs vt Hok Hl Hn s. pose proof (slice_srep G t xs vt Hok) as HS. fold s in HS.
  pose proof (proj1 Hok) as Hz. pose proof (wf_size_max _ (wf_types G HG t)) as Hmax.
  destruct (torn_position (t_size (G t)) ltac:(lia) Hmax Hn) as (k & g & Hk & Hg & Hgs & E1 & E2).
  destruct xs as [|x xs]; [cbn in Hl; lia|].
  destruct (torn_bytes G t x xs g Hgs) as [rest Hr].
  pose proof (encs_length G t (x :: xs)) as Hlen.
  assert (HI : index_byte_range P (t_size (G t)) k = Ret (g, g + t_size (G t))).
  { unfold index_byte_range. rewrite umul_ret, uadd_ret by exact HP. cbn [obind].
    rewrite umul_ret by exact HP. now rewrite E1, E2. }
  destruct (torn_prefix (t_size (G t)) (Frag t x (N.to_nat g)) rest ltac:(lia)) as [l Hp].
  assert (HR : index_range (sl_data s) g (g + t_size (G t)) = Ret (Frag t x (N.to_nat g) :: l)).
  { unfold index_range. rewrite (srep_data _ _ _ _ HS), Hlen.
    rewrite (proj2 (N.leb_le g (g + t_size (G t)))) by lia.
    rewrite (proj2 (N.leb_le (g + t_size (G t)) _)) by nia. cbn [andb].
    replace (g + t_size (G t) - g) with (t_size (G t)) by lia. now rewrite Hr, Hp. }
  assert (Hll : lenN (Frag t x (N.to_nat g) :: l) = t_size (G t)).
  { rewrite <- Hp, <- Hr, lenN_firstnN, lenN_skipnN, Hlen. nia. }
  assert (HF : from_bytes G t (Frag t x (N.to_nat g) :: l) = UB UbValue).
  { unfold from_bytes. rewrite Hll, N.eqb_refl. cbn [assert_ obind]. now apply torn_read. }
  exists k. unfold sl_get, slm_get_mut, sl_bounds_debug. destruct HP as [HP1 HP2]. rewrite HP1. cbn [obind].
  rewrite (srep_size G HG t s _ HS), HI. cbn [obind fst snd]. rewrite HR. cbn [obind].
  do 4 eexists. csplit; [exact Hk|reflexivity| |reflexivity| | |].
  - unfold cr_downcast, cr_is, sl_ref, sl_element_type_id. cbn [cr_type_id cr_bytes].
    rewrite (srep_elem _ _ _ _ HS). cbn [e_type_id elem_new]. rewrite N.eqb_refl, HF. reflexivity.
  - unfold cm_downcast, sl_mut, sl_element_type_id. cbn [cm_type_id cm_bytes].
    rewrite (srep_elem _ _ _ _ HS). cbn [e_type_id elem_new]. rewrite N.eqb_refl, HF. reflexivity.
  - unfold slm_rotate_left. rewrite (srep_size G HG t s _ HS), umul_ret by (split; assumption). rewrite E1.
    rewrite (srep_data _ _ _ _ HS), Hlen. rewrite (proj2 (N.leb_le g _)) by nia. reflexivity.
  - unfold sl_as_slice, sl_check, sl_len, sl_element_type_id. cbn [sl_elem sl_data].
    rewrite (srep_elem _ _ _ _ HS). cbn [e_type_id elem_new]. rewrite N.eqb_refl, HP1. cbn [obind].
    unfold udiv. rewrite (num_bytes_new G t HG).
    rewrite (proj2 (N.eqb_neq _ _) Hz). cbn [obind].
    assert (Hla : lenN (skipnN g (encs G t (x :: xs)) ++ firstnN g (encs G t (x :: xs))) =
                  lenN (x :: xs) * t_size (G t)).
    { rewrite <- Hlen. unfold lenN, skipnN, firstnN. rewrite app_length, Nat.add_comm, <- app_length.
      now rewrite firstn_skipn. }
    rewrite Hla, N.div_mul by exact Hz. rewrite Hr in *.
    replace (N.to_nat (lenN (x :: xs))) with (S (List.length xs)) by (unfold lenN; cbn; lia).
    cbn [app] in *. rewrite torn_read_vals; [reflexivity|exact Hg|lia|]. rewrite Hla. nia.
Qed.
