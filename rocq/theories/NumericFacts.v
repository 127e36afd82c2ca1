(** * NumericFacts: what casting and printing a buffer do. *)

From Coq Require Import QArith Qabs Lqa.
From Verif Require Export NumericProofs.
From Verif Require Import Reach DynReach.
Local Open Scope Z_scope.

Lemma fits_int_number O s b z : shape_of O = SInt s b -> (fits_int s b z = true <-> number O z).
Proof.
  intros E. rewrite number_shape. unfold fits_int. rewrite E, andb_true_iff, !Z.leb_le. tauto.
Qed.
Lemma zero_number O : number O 0.
Proof. unfold number. destruct O; cbn; lia. Qed.
Lemma zero_value O : num_value O 0 = Some (inject_Z 0) \/ exists q, num_value O 0 = Some q /\ (q == 0)%Q.
Proof.
  destruct O; try (left; reflexivity); right; (eexists; split; [vm_compute; reflexivity|]); reflexivity.
Qed.

Lemma quot_truncation q : truncation q (Z.quot (Qnum q) (Zpos (Qden q))).
Proof.
  destruct q as [a d]. cbn [Qnum Qden]. pose proof (Z.quot_rem' a (Zpos d)) as HQ.
  set (n := Z.quot a (Zpos d)) in *. set (r := Z.rem a (Zpos d)) in *.
  destruct (Z.le_gt_cases 0 a) as [Ha|Ha].
  - pose proof (Z.rem_bound_pos a (Zpos d) Ha ltac:(lia)) as HR. fold r in HR.
    assert (0 <= n) by (apply Z.quot_pos; lia).
    unfold truncation, Qle, Qlt, Qabs, inject_Z, Qplus, Qmult. cbn [Qnum Qden]. rewrite ?Z.abs_eq by lia. cbn. nia.
  - assert (HR : - Zpos d < r <= 0).
    { unfold r. pose proof (Z.rem_bound_pos (- a) (Zpos d) ltac:(lia) ltac:(lia)) as HR. rewrite Z.rem_opp_l in HR by lia. lia. }
    assert (n <= 0).
    { destruct (Z.le_gt_cases n 0); [assumption|]. nia. }
    unfold truncation, Qle, Qlt, Qabs, inject_Z, Qplus, Qmult. cbn [Qnum Qden]. rewrite ?Z.abs_neq by lia. cbn. nia.
Qed.

Lemma truncation_int z n : truncation (inject_Z z) n -> n = z.
Proof. unfold truncation, Qle, Qlt, Qabs, inject_Z, Qplus, Qmult. cbn. nia. Qed.
Lemma truncation_eq q q' n : (q == q')%Q -> truncation q n -> truncation q' n.
Proof. intros E (H1 & H2 & H3). unfold truncation. rewrite <- E. auto. Qed.

Lemma f_trunc_quot neg m e : 0 <= m ->
  zsign neg (f_trunc m e) = Z.quot (Qnum (with_sign neg (dyadic m e))) (Zpos (Qden (with_sign neg (dyadic m e)))).
Proof.
  intros Hm. unfold f_trunc, dyadic. destruct (Z.leb_spec 0 e).
  - destruct neg; cbn; now rewrite Z.quot_1_r.
  - pose proof (pow2_pos (- e) ltac:(lia)).
    destruct neg; cbn [with_sign zsign Qopp Qnum Qden]; rewrite Z2Pos.id by lia; rewrite ?Z.quot_opp_l by lia;
      rewrite Z.quot_div_nonneg by lia; reflexivity.
Qed.

Lemma closest_eq k y q q' : (q == q')%Q -> closest k y q -> closest k y q'.
Proof. intros E (r & Hr & H). exists r. split; [exact Hr|]. intros v r' Hv Hv'. rewrite <- E. eauto. Qed.
Lemma representable_eq k q q' : (q == q')%Q -> representable k q -> representable k q'.
Proof. intros E (v & r & H1 & H2 & H3). exists v, r. now rewrite <- E. Qed.
Lemma stands_eq k y q q' : (q == q')%Q -> stands_for k y q -> stands_for k y q'.
Proof. intros E (r & H2 & H3). exists r. now rewrite <- E. Qed.

Lemma int_value k s b v : shape_of k = SInt s b -> num_value k v = Some (inject_Z v).
Proof. intros E. now rewrite num_value_shape, E. Qed.

(** Casting to an integer type. *)
Lemma converted_int k O s b x y : shape_of O = SInt s b -> number k x ->
  (forall q, num_value k x = Some q -> y = let n := Z.quot (Qnum q) (Zpos (Qden q)) in if fits_int s b n then n else 0) ->
  (num_value k x = None -> y = 0) -> converted k O x y.
Proof.
  intros E Hx Hq H0. assert (HI : integer O) by (apply integer_shape; rewrite E; exact I).
  assert (Hn : number O y).
  { destruct (num_value k x) as [q|] eqn:Ev; [|rewrite H0 by reflexivity; apply zero_number].
    rewrite (Hq q eq_refl). cbn zeta. destruct (fits_int s b (Z.quot (Qnum q) (Zpos (Qden q)))) eqn:Ei; [|apply zero_number]. now apply (fits_int_number O s b). }
  split; [exact Hn|]. split; [|split; [auto|split; [tauto|intros Hni; contradiction]]].
  intros q Ev. specialize (Hq q Ev). cbn zeta in Hq. set (n := Z.quot _ _) in Hq.
  assert (HT : truncation q n) by apply quot_truncation. split; [|split; [|tauto]].
  - intros (v & r & Hv & Hr & Hqe). rewrite (int_value O s b v E) in Hr. injection Hr as <-.
    assert (n = v). { apply truncation_int. eapply truncation_eq; [|exact HT]. now symmetry. }
    apply (fits_int_number O s b) in Hv; [|exact E]. rewrite H in Hq. rewrite Hv in Hq. subst y.
    exists (inject_Z v). split; [apply (int_value O s b v E)|exact Hqe].
  - intros _. exists n. split; [exact HT|]. rewrite <- (fits_int_number O s b n E). destruct (fits_int s b n); split; congruence.
Qed.

Lemma converted_float k O p x0 x y neg m e : shape_of O = SFloat p x0 -> 0 <= m ->
  (forall q, num_value k x = Some q -> (q == with_sign neg (dyadic m e))%Q) -> num_value k x <> None ->
  (~ is_nan k x) -> (forall b, ~ is_inf k b x) ->
  y = f_signed p x0 neg (f_round p x0 m e) -> converted k O x y.
Proof.
  intros E Hm Hq Hv Hnn Hni ->. destruct (to_float O p x0 neg m e E Hm) as (H1 & H2 & H3 & H4).
  split; [exact H1|]. split.
  - intros q Ev. specialize (Hq q Ev). split; [|split].
    + intros HR. apply (stands_eq _ _ (with_sign neg (dyadic m e))); [now symmetry|]. apply closest_exact; [apply H2|].
      * apply H4. destruct HR as (v & r & Hr1 & Hr2 & Hr3). exists v, r. split; [exact Hr1|]. split; [exact Hr2|].
        rewrite Hr3, Hq. apply Qle_refl.
      * eapply representable_eq; [exact Hq|exact HR].
    + intros HI. apply integer_shape in HI. now rewrite E in HI.
    + intros _. split; [|split].
      * intros Hy. eapply closest_eq; [symmetry; exact Hq|]. now apply H2.
      * intros Hy. exists neg. now apply H3.
      * intros (v & r & Hr1 & Hr2 & Hr3). apply H4. exists v, r. split; [exact Hr1|]. split; [exact Hr2|]. now rewrite <- Hq.
  - split; [|split].
    + intros HI. apply integer_shape in HI. now rewrite E in HI.
    + intros _ Hn. contradiction.
    + intros _ b Hb. now apply Hni in Hb.
Qed.

Lemma cast_converted k O x : number k x ->
  converted k O x (match num_cast k O x with Some y => y | None => num_zero end).
Proof.
  intros Hx. unfold num_cast. destruct (shape_of k) as [s b|p ex] eqn:Ek; destruct (shape_of O) as [s' b'|p' ex'] eqn:EO.
  - apply (converted_int k O s' b'); auto.
    + intros q Hq. rewrite (int_value k s b x Ek) in Hq. injection Hq as <-. cbn [Qnum Qden inject_Z]. rewrite Z.quot_1_r.
      destruct (fits_int s' b' x); reflexivity.
    + rewrite (int_value k s b x Ek). discriminate.
  - apply (converted_float k O p' ex' x _ (x <? 0) (Z.abs x) 0); auto; try lia.
    + intros q Hq. rewrite (int_value k s b x Ek) in Hq. injection Hq as <-. cbn.
      unfold dyadic. cbn. rewrite Z.mul_1_r. destruct (Z.ltb_spec x 0); cbn; unfold Qeq; cbn; lia.
    + rewrite (int_value k s b x Ek). discriminate.
    + rewrite is_nan_shape by assumption. now rewrite Ek.
    + intros c. rewrite is_inf_shape. now rewrite Ek.
  - destruct (shapes k p ex Ek) as [Hp Hex]. pose proof Hx as Hx'. apply number_shape in Hx'. rewrite Ek in Hx'.
    pose proof (mag_ok p ex Hp Hex x Hx') as Hmag. pose proof (mant_nonneg p Hp (f_mag p ex x) ltac:(lia)) as Hmn.
    apply (converted_int k O s' b'); auto.
    + intros q Hq. rewrite (float_value k p ex x Ek) in Hq. destruct (f_mag p ex x <? f_inf p ex); [|discriminate].
      injection Hq as <-. rewrite <- f_trunc_quot by assumption. cbn zeta. unfold zsign.
      match goal with |- context [fits_int s' b' ?z] => destruct (fits_int s' b' z) end; reflexivity.
    + rewrite (float_value k p ex x Ek). destruct (f_mag p ex x <? f_inf p ex); [discriminate|reflexivity].
  - destruct (shapes k p ex Ek) as [Hp Hex]. pose proof Hx as Hx'. apply number_shape in Hx'. rewrite Ek in Hx'.
    destruct (shapes O p' ex' EO) as [Hp' Hex'].
    pose proof (mag_ok p ex Hp Hex x Hx') as Hmag. pose proof (mant_nonneg p Hp (f_mag p ex x) ltac:(lia)) as Hmn.
    pose proof (inf_pos p' ex' Hp' Hex') as Hinf. pose proof (inf_lt_sign p' ex' Hp' Hex') as Hsb. pose proof (B_pos p' Hp') as HB.
    assert (Hni : ~ integer O) by (rewrite integer_shape, EO; tauto).
    destruct (Z.ltb_spec (f_inf p ex) (f_mag p ex x)) as [Hnan|Hnan].
    + assert (HM : 0 <= f_nan p' ex' < f_sign_bit p' ex').
      { unfold f_nan. assert (2 ^ (p' - 2) < 2 ^ (p' - 1)) by (apply Z.pow_lt_mono_r; lia). pose proof (pow2_pos (p' - 2) ltac:(lia)). lia. }
      destruct (signed_ok p' ex' Hp' Hex' false _ HM) as (Hn1 & Hn2 & Hn3). cbn [f_signed] in Hn1, Hn2, Hn3.
      split; [apply number_shape; rewrite EO; exact Hn1|]. split; [|split; [tauto|split]].
      * intros q Hq. rewrite (float_value k p ex x Ek) in Hq. destruct (Z.ltb_spec (f_mag p ex x) (f_inf p ex)); [lia|discriminate].
      * intros _ _. apply is_nan_shape; [apply number_shape; rewrite EO; exact Hn1|]. rewrite EO, Hn3. unfold f_nan. pose proof (pow2_pos (p' - 2) ltac:(lia)). lia.
      * intros _ c Hc. apply is_inf_shape in Hc. rewrite Ek in Hc. lia.
    + destruct (Z.eqb_spec (f_mag p ex x) (f_inf p ex)) as [Hi|Hi].
      * destruct (signed_ok p' ex' Hp' Hex' (f_neg p ex x) (f_inf p' ex') ltac:(lia)) as (Hn1 & Hn2 & Hn3).
        split; [apply number_shape; rewrite EO; exact Hn1|]. split; [|split; [tauto|split]].
        -- intros q Hq. rewrite (float_value k p ex x Ek) in Hq. destruct (Z.ltb_spec (f_mag p ex x) (f_inf p ex)); [lia|discriminate].
        -- intros _ Hc. rewrite is_nan_shape in Hc by assumption. rewrite Ek in Hc. lia.
        -- intros _ c Hc. apply is_inf_shape in Hc. apply is_inf_shape. rewrite Ek in Hc. rewrite EO, Hn2, Hn3. split; [reflexivity|tauto].
      * apply (converted_float k O p' ex' x _ (f_neg p ex x) (f_mant p (f_mag p ex x)) (f_exp p ex (f_mag p ex x))); auto.
        -- intros q Hq. rewrite (float_value k p ex x Ek) in Hq. destruct (_ <? _); [|discriminate]. injection Hq as <-. reflexivity.
        -- rewrite (float_value k p ex x Ek). destruct (Z.ltb_spec (f_mag p ex x) (f_inf p ex)); [discriminate|lia].
        -- rewrite is_nan_shape by assumption. rewrite Ek. lia.
        -- intros c. rewrite is_inf_shape, Ek. lia.
Qed.

Lemma converted_integers k O x y : integer k -> integer O -> converted k O x y -> same_or_zero k O x y.
Proof.
  intros Hk HO (Hn & Hc & _). intros q Hq. destruct (Hc q Hq) as (H1 & H2 & _). split; [exact H1|]. intros HR.
  destruct (H2 HO) as (n & Ht & Hyes & Hno).
  apply integer_shape in Hk, HO. destruct (shape_of k) as [s b|] eqn:Ek; [|contradiction]. destruct (shape_of O) as [s' b'|] eqn:EO; [|contradiction].
  rewrite (int_value k s b x Ek) in Hq. injection Hq as <-. apply truncation_int in Ht. subst n.
  assert (y = 0).
  { apply Hno. intros Hx. apply HR. exists x, (inject_Z x). split; [exact Hx|]. split; [apply (int_value O s' b' x EO)|reflexivity]. }
  subst y. exists (inject_Z 0). split; [apply (int_value O s' b' 0 EO)|reflexivity].
Qed.

(** ** Buffers *)

Lemma try_types_in {A} nid (f : numty -> A) err k ks : (forall k k', nid k = nid k' -> k = k') -> In k ks ->
  try_types nid ks (nid k) f err = f k.
Proof.
  intros HI. induction ks as [|k' ks IH]; [intros []|]. cbn. intros [->|Hin]; [now rewrite N.eqb_refl|].
  destruct (N.eqb_spec (nid k) (nid k')) as [E|_]; [apply HI in E; now subst|auto].
Qed.
Lemma try_types_out {A} nid (f : numty -> A) err t ks : (forall k, In k ks -> nid k <> t) -> try_types nid ks t f err = err.
Proof.
  induction ks as [|k' ks IH]; [reflexivity|]. cbn. intros H.
  destruct (N.eqb_spec t (nid k')) as [E|_]; [exfalso; apply (H k'); auto|]. apply IH. auto.
Qed.

Lemma shows_parts {V} G (b : veccopy V) t xs : vc_as_slice_as G t b = Ret (Some xs) ->
  vc_element_type_id b = t /\ vc_as_slice_as_unchecked G t b = Ret xs.
Proof.
  unfold vc_as_slice_as, vc_as_slice_as_unchecked, vc_check. destruct (N.eqb_spec t (vc_element_type_id b)) as [E|E].
  - destruct (read_vals _ _ _ _); cbn; try discriminate. intros [= <-]. auto.
  - discriminate.
Qed.

Lemma convert_shows {V} P G nid (b : veccopy V) k O xs : number_ids G nid ->
  vc_as_slice_as G (nid k) b = Ret (Some xs) -> Forall (number k) xs ->
  exists ys, convert_into_vec P G nid O b k = Ret ys /\ Forall2 (converted k O) xs ys.
Proof.
  intros [HI _] Hs Hn. apply shows_parts in Hs as [E Hs]. unfold convert_into_vec. rewrite E, N.eqb_refl, Hs.
  eexists. split; [destruct (debug_assertions P); reflexivity|].
  clear Hs. induction Hn as [|x l Hx Hl IH]; cbn [map]; [constructor|]. constructor; [now apply cast_converted|exact IH].
Qed.

Lemma c52_vec_copy_partial_fact :
  forall (V : Type) (P : profile) (G : tenv) (nid : numty -> tyid), number_ids G nid ->
  forall (b : veccopy V) k O xs, In k [U8; I8; U16; I16; U32; I32; U64; I64; F32; F64] ->
  shows G b (nid k) xs -> Forall (number k) xs ->
  exists ys, vc_cast_into_vec P G nid O b = Ret ys /\ Forall2 (converted k O) xs ys.
Proof.
  intros V P G nid HI b k O xs Hk [_ Hs] Hn. destruct (convert_shows P G nid b k O xs HI Hs Hn) as (ys & E & HF).
  exists ys. split; [|exact HF]. unfold vc_cast_into_vec, call_numeric_buffer_fn.
  rewrite (proj1 (shows_parts G b _ _ Hs)). rewrite (try_types_in nid _ _ k tried (proj1 HI) Hk). exact E.
Qed.

Lemma c52_vec_dyn_partial_fact :
  forall (V : Type) (P : profile) (G : tenv) (nid : numty -> tyid), number_ids G nid ->
  forall (b : vecdyn V) k O xs, In k [U8; I8; U16; I16; U32; I32; U64; I64; F32; F64] ->
  contents G b (nid k) xs -> Forall (number k) xs ->
  exists ys, vd_cast_into_vec P G nid O b = Ret (Some ys) /\ Forall2 (converted k O) xs ys.
Proof.
  intros V P G nid HI b k O xs Hk [_ Hs] Hn. destruct (convert_shows P G nid b k O xs HI Hs Hn) as (ys & E & HF).
  exists ys. split; [|exact HF]. unfold vd_cast_into_vec, call_numeric_buffer_fn.
  rewrite (proj1 (shows_parts G b _ _ Hs)). rewrite (try_types_in nid _ _ k tried (proj1 HI) Hk). rewrite E. reflexivity.
Qed.

Lemma c52_integers_partial_fact :
  forall (V : Type) (P : profile) (G : tenv) (nid : numty -> tyid), number_ids G nid ->
  forall (b : veccopy V) k O xs, In k [U8; I8; U16; I16; U32; I32; U64; I64] -> integer O ->
  shows G b (nid k) xs -> Forall (number k) xs ->
  exists ys, vc_cast_into_vec P G nid O b = Ret ys /\ vd_cast_into_vec P G nid O b = Ret (Some ys) /\
    Forall2 (same_or_zero k O) xs ys.
Proof.
  intros V P G nid HI b k O xs Hk HO Hs Hn.
  assert (Hk' : In k [U8; I8; U16; I16; U32; I32; U64; I64; F32; F64]) by (cbn in *; tauto).
  assert (Hik : integer k) by (cbn in Hk; unfold integer; destruct k; try reflexivity; exfalso; intuition discriminate).
  destruct (c52_vec_copy_partial_fact V P G nid HI b k O xs Hk' Hs Hn) as (ys & E & HF).
  exists ys. split; [exact E|]. split.
  - unfold vd_cast_into_vec, vc_cast_into_vec, call_numeric_buffer_fn in *.
    rewrite (proj1 (shows_parts G b _ _ (proj2 Hs))) in E |- *. rewrite (try_types_in nid _ _ k tried (proj1 HI) Hk') in E.
    rewrite (try_types_in nid _ _ k tried (proj1 HI) Hk'). rewrite E. reflexivity.
  - revert HF. clear -Hik HO. induction 1; constructor; [now apply converted_integers|assumption].
Qed.

Lemma c52_other_types_fact :
  forall (V : Type) (P : profile) (G : tenv) (nid : numty -> tyid),
  forall (b : veccopy V) O t xs, shows G b t xs ->
  (forall k, In k [U8; I8; U16; I16; U32; I32; U64; I64; F32; F64] -> nid k <> t) ->
  vc_cast_into_vec P G nid O b = Ret [] /\ vd_cast_into_vec P G nid O b = Ret None.
Proof.
  intros V P G nid b O t xs [_ Hs] Hk. apply shows_parts in Hs as [E _].
  unfold vc_cast_into_vec, vd_cast_into_vec, call_numeric_buffer_fn. rewrite E.
  rewrite !(try_types_out nid _ _ t tried Hk). auto.
Qed.

Lemma c52_wide_numbers_lost_fact :
  forall (V : Type) (P : profile) (G : tenv) (nid : numty -> tyid), number_ids G nid ->
  forall (b : veccopy V) k O xs, In k [Usize; Isize; U128; I128] -> shows G b (nid k) xs ->
  vc_cast_into_vec P G nid O b = Ret [] /\ vd_cast_into_vec P G nid O b = Ret None.
Proof.
  intros V P G nid HI b k O xs Hk Hs. apply (c52_other_types_fact V P G nid b O (nid k) xs Hs).
  intros k' Hk' E. apply (proj1 HI) in E. subst k'. cbn in Hk, Hk'. intuition congruence.
Qed.

(** 1.5 *)
Definition one_and_a_half : payload := 4609434218613702656.
Lemma c52_fraction_refuted_fact :
  forall (V : Type) (P : profile) (G : tenv) (nid : numty -> tyid), number_ids G nid ->
  forall (b : veccopy V), shows G b (nid F64) [one_and_a_half] ->
  exists y, vc_cast_into_vec P G nid I32 b = Ret [y] /\ vd_cast_into_vec P G nid I32 b = Ret (Some [y]) /\
    ~ same_or_zero F64 I32 one_and_a_half y.
Proof.
  intros V P G nid HI b [_ Hs]. exists 1. apply shows_parts in Hs as [E Hs].
  unfold vc_cast_into_vec, vd_cast_into_vec, call_numeric_buffer_fn. rewrite E.
  rewrite !(try_types_in nid _ _ F64 tried (proj1 HI)) by (cbn; tauto).
  unfold convert_into_vec. rewrite E, N.eqb_refl, Hs. split; [destruct (debug_assertions P); vm_compute; reflexivity|].
  split; [destruct (debug_assertions P); vm_compute; reflexivity|].
  intros HC. assert (Hv : exists q, num_value F64 one_and_a_half = Some q /\ (q == 3 # 2)%Q).
  { eexists. split; [vm_compute; reflexivity|reflexivity]. }
  destruct Hv as (q & Hq & Hq'). destruct (HC q Hq) as [_ H0].
  assert (HR : ~ representable I32 q).
  { intros (v & r & _ & Hr & He). cbn in Hr. injection Hr as <-. rewrite Hq' in He. unfold Qeq in He. cbn in He. lia. }
  destruct (H0 HR) as (r & Hr & He). cbn in Hr. injection Hr as <-. unfold Qeq in He. cbn in He. lia.
Qed.

(** 2^24 + 1 *)
Lemma c52_rounding_refuted_fact :
  forall (V : Type) (P : profile) (G : tenv) (nid : numty -> tyid), number_ids G nid ->
  forall (b : veccopy V), shows G b (nid I32) [16777217] ->
  exists y, vc_cast_into_vec P G nid F32 b = Ret [y] /\ stands_for F32 y (inject_Z 16777216) /\
    ~ same_or_zero I32 F32 16777217 y.
Proof.
  intros V P G nid HI b [_ Hs]. apply shows_parts in Hs as [E Hs].
  unfold vc_cast_into_vec, call_numeric_buffer_fn. rewrite E.
  rewrite !(try_types_in nid _ _ I32 tried (proj1 HI)) by (cbn; tauto).
  unfold convert_into_vec. rewrite E, N.eqb_refl, Hs.
  exists 1266679808. split; [destruct (debug_assertions P); vm_compute; reflexivity|].
  assert (HV : exists r, num_value F32 1266679808 = Some r /\ (r == inject_Z 16777216)%Q).
  { eexists. split; [vm_compute; reflexivity|reflexivity]. }
  split; [exact HV|]. destruct HV as (r & Hr & Hr'). intros HC.
  destruct (HC _ eq_refl) as [_ H0].
  pose proof (cast_converted I32 F32 16777217 ltac:(unfold number; cbn; lia)) as (_ & HQ & _).
  destruct (HQ _ eq_refl) as [HQ1 _].
  replace (match num_cast I32 F32 16777217 with Some y => y | None => num_zero end) with 1266679808 in HQ1 by (vm_compute; reflexivity).
  destruct H0 as (r0 & Hr0 & Hz).
  - intros HR. destruct (HQ1 HR) as (r1 & Hr1 & He). rewrite Hr in Hr1. injection Hr1 as <-. rewrite Hr' in He. discriminate He.
  - rewrite Hr in Hr0. injection Hr0 as <-. rewrite Hr' in Hz. discriminate Hz.
Qed.

(** ** Display *)

Lemma display_items_spec k xs f :
  display_items k xs f =
  match wr_room f with
  | None => (Ret tt, Writer (wr_items f ++ map (fun x => (k, x)) xs) None)
  | Some n =>
      if (List.length xs <=? n)%nat
      then (Ret tt, Writer (wr_items f ++ map (fun x => (k, x)) xs) (Some (n - List.length xs)%nat))
      else (Panic PAssert, Writer (wr_items f ++ map (fun x => (k, x)) (firstn n xs)) (Some 0%nat))
  end.
Proof.
  revert f. induction xs as [|x xs IH]; intros [items room].
  - cbn. rewrite app_nil_r. destruct room as [n|]; [|reflexivity]. cbn. now rewrite Nat.sub_0_r.
  - cbn [display_items]. unfold write_item. cbn [wr_room wr_items]. destruct room as [[|n]|].
    + cbn. now rewrite app_nil_r.
    + rewrite IH. cbn [wr_room wr_items List.length Nat.leb Nat.sub map firstn]. destruct (_ <=? _)%nat; now rewrite <- app_assoc.
    + rewrite IH. cbn [wr_room wr_items map]. now rewrite <- app_assoc.
Qed.

Lemma display_shows {V} P G nid (b : veccopy V) k xs f : number_ids G nid -> In k tried ->
  vc_as_slice_as G (nid k) b = Ret (Some xs) ->
  vc_display P G nid b f = (let '(o, f') := display_items k xs f in (let! _ := o in Ret true, f')).
Proof.
  intros [HI _] Hk Hs. apply shows_parts in Hs as [E Hs]. unfold vc_display, call_numeric_buffer_fn.
  rewrite E, (try_types_in nid _ _ k tried HI Hk). unfold reinterpret_display. rewrite E, N.eqb_refl, Hs.
  destruct (debug_assertions P); reflexivity.
Qed.

Lemma c69_prints_all_fact :
  forall (V : Type) (P : profile) (G : tenv) (nid : numty -> tyid), number_ids G nid ->
  forall (b : veccopy V) k xs f, In k [U8; I8; U16; I16; U32; I32; U64; I64; F32; F64] ->
  shows G b (nid k) xs ->
  (forall n, wr_room f = Some n -> (List.length xs <= n)%nat) ->
  exists f', vc_display P G nid b f = (Ret true, f') /\
    wr_items f' = wr_items f ++ map (fun x => (k, x)) xs.
Proof.
  intros V P G nid HI b k xs f Hk [_ Hs] Hroom. rewrite (display_shows P G nid b k xs f HI Hk Hs), display_items_spec.
  destruct (wr_room f) as [n|]; [|cbn; eauto]. specialize (Hroom n eq_refl). apply Nat.leb_le in Hroom. rewrite Hroom. cbn. eauto.
Qed.

Lemma c69_other_types_fact :
  forall (V : Type) (P : profile) (G : tenv) (nid : numty -> tyid),
  forall (b : veccopy V) t xs f, shows G b t xs ->
  (forall k, In k [U8; I8; U16; I16; U32; I32; U64; I64; F32; F64] -> nid k <> t) ->
  vc_display P G nid b f = (Ret true, f).
Proof.
  intros V P G nid b t xs f [_ Hs] Hk. apply shows_parts in Hs as [E _].
  unfold vc_display, call_numeric_buffer_fn. rewrite E, (try_types_out nid _ _ t tried Hk). reflexivity.
Qed.

Lemma c69_failing_writer_refuted_fact :
  forall (V : Type) (P : profile) (G : tenv) (nid : numty -> tyid), number_ids G nid ->
  forall (b : veccopy V) k xs f n, In k [U8; I8; U16; I16; U32; I32; U64; I64; F32; F64] ->
  shows G b (nid k) xs -> wr_room f = Some n -> (n < List.length xs)%nat ->
  exists why f', vc_display P G nid b f = (Panic why, f').
Proof.
  intros V P G nid HI b k xs f n Hk [_ Hs] Hr Hn. rewrite (display_shows P G nid b k xs f HI Hk Hs), display_items_spec, Hr.
  apply Nat.leb_gt in Hn. rewrite Hn. cbn. eauto.
Qed.
