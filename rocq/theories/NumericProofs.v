(** * NumericProofs: rounding and casting. *)

From Coq Require Import QArith Qabs Lqa.
From Verif Require Export NumericSpec.
Local Open Scope Z_scope.

(** ** Dyadic numbers *)

Lemma pow2_pos n : 0 <= n -> 0 < 2 ^ n.
Proof. intros. apply Z.pow_pos_nonneg; lia. Qed.

Lemma dyadic_scale m e d : d <= e -> d <= 0 -> (dyadic m e == Qmake (m * 2 ^ (e - d)) (Z.to_pos (2 ^ (- d))))%Q.
Proof.
  intros H1 H2. unfold dyadic, Qeq. destruct (Z.leb_spec 0 e); cbn [Qnum Qden inject_Z].
  - rewrite Z2Pos.id by (apply pow2_pos; lia). rewrite Z.mul_1_r.
    replace (e - d) with (e + - d) by lia. rewrite Z.pow_add_r by lia. ring.
  - rewrite !Z2Pos.id by (apply pow2_pos; lia).
    replace (- d) with ((e - d) + - e) by lia. rewrite Z.pow_add_r by lia. ring.
Qed.

(** ** Floats *)

Section Float.
Variables p x : Z.
Hypothesis Hp : 2 <= p.
Hypothesis Hx : 2 <= x.
Notation B := (2 ^ (p - 1)).
Notation emin := (f_emin p x).

Lemma B_pos : 0 < B. Proof. apply pow2_pos; lia. Qed.
Lemma emin_neg : emin < 0.
Proof.
  unfold f_emin. assert (2 ^ 1 <= 2 ^ (x - 1)) by (apply Z.pow_le_mono_r; lia). change (2 ^ 1) with 2 in *. lia.
Qed.
Lemma two_B : 2 * B = 2 ^ p.
Proof. replace p with (1 + (p - 1)) at 2 by lia. rewrite Z.pow_add_r by lia. reflexivity. Qed.

(** The magnitude of bits, in units of the smallest positive float. *)
Definition F (b : Z) : Z := f_mant p b * 2 ^ (f_exp p x b - emin).

Lemma exp_ge b : 0 <= b -> emin <= f_exp p x b.
Proof.
  intros. unfold f_exp. destruct (Z.eqb_spec (b / B) 0); [lia|].
  pose proof (Z.div_pos b B ltac:(lia) B_pos). lia.
Qed.
Lemma mant_nonneg b : 0 <= b -> 0 <= f_mant p b.
Proof.
  intros. unfold f_mant. pose proof (Z.mod_pos_bound b B B_pos). pose proof B_pos. destruct (_ =? 0); lia.
Qed.

Lemma F_canon j q : 0 <= j -> 0 <= q <= 2 * B -> B <= q \/ j = 0 -> F (j * B + q) = q * 2 ^ j.
Proof.
  intros Hj Hq Hc. pose proof B_pos as HB. unfold F, f_mant, f_exp.
  assert (HD : forall E M, 0 <= M < B -> j * B + q = E * B + M -> (j * B + q) / B = E /\ (j * B + q) mod B = M).
  { intros E M HM HE. split.
    - symmetry. apply Z.div_unique with M; [left; lia|lia].
    - symmetry. apply Z.mod_unique with E; [left; lia|lia]. }
  destruct (Z.lt_ge_cases q B) as [H1|H1].
  - destruct Hc; [lia|]. subst j. destruct (HD 0 q ltac:(lia) ltac:(lia)) as [-> ->]. cbn [Z.eqb]. rewrite Z.sub_diag. reflexivity.
  - destruct (Z.lt_ge_cases q (2 * B)) as [H2|H2].
    + destruct (HD (j + 1) (q - B) ltac:(lia) ltac:(lia)) as [-> ->].
      destruct (Z.eqb_spec (j + 1) 0); [lia|]. f_equal; [lia|f_equal; lia].
    + destruct (HD (j + 2) 0 ltac:(lia) ltac:(lia)) as [-> ->].
      destruct (Z.eqb_spec (j + 2) 0); [lia|]. replace (emin + (j + 2) - 1 - emin) with (1 + j) by lia.
      rewrite Z.pow_add_r by lia. change (2 ^ 1) with 2. replace q with (2 * B) by lia. ring.
Qed.

Lemma F_step b : 0 <= b -> F b < F (b + 1).
Proof.
  intros Hb. pose proof B_pos as HB. pose proof (Z.div_pos b B ltac:(lia) HB) as HE.
  pose proof (Z.mod_pos_bound b B HB) as HM. pose proof (Z.div_mod b B ltac:(lia)) as HDM.
  destruct (Z.eq_dec (b / B) 0) as [E0|E0].
  - assert (Eb : b = 0 * B + b mod B) by lia. rewrite E0 in HDM.
    rewrite Eb at 1. rewrite F_canon by lia.
    replace (b + 1) with (0 * B + (b mod B + 1)) by lia. rewrite F_canon by lia. lia.
  - set (j := b / B - 1). assert (Eb : b = j * B + (b mod B + B)) by (unfold j; lia).
    rewrite Eb at 1. rewrite F_canon by (unfold j; lia).
    replace (b + 1) with (j * B + (b mod B + B + 1)) by lia. rewrite F_canon by (unfold j; lia).
    pose proof (pow2_pos j ltac:(unfold j; lia)). nia.
Qed.
Lemma F_mono b n : 0 <= b -> (F b + Z.of_nat n <= F (b + Z.of_nat n)).
Proof.
  intros Hb. induction n as [|n IH]; [replace (b + Z.of_nat 0) with b by lia; lia|].
  pose proof (F_step (b + Z.of_nat n) ltac:(lia)). replace (b + Z.of_nat (S n)) with (b + Z.of_nat n + 1) by lia. lia.
Qed.
Lemma F_lt b b' : 0 <= b < b' -> F b < F b'.
Proof.
  intros H. pose proof (F_mono b (Z.to_nat (b' - b)) ltac:(lia)) as HM.
  replace (b + Z.of_nat (Z.to_nat (b' - b))) with b' in HM by lia. lia.
Qed.
Lemma F_le b b' : 0 <= b <= b' -> F b <= F b'.
Proof. intros H. destruct (Z.eq_dec b b'); [subst; lia|]. pose proof (F_lt b b' ltac:(lia)). lia. Qed.
Lemma F_0 : F 0 = 0.
Proof. pose proof B_pos. exact (F_canon 0 0 ltac:(lia) ltac:(lia) ltac:(lia)). Qed.

(** The rounding, against an unbounded range of exponents. *)
Lemma round_spec m e d : 0 <= m -> d <= e -> d <= emin ->
  exists r, 0 <= r /\ f_round p x m e = Z.min r (f_inf p x) /\
    (forall b, 0 <= b -> Z.abs (F r * 2 ^ (emin - d) - m * 2 ^ (e - d)) <= Z.abs (F b * 2 ^ (emin - d) - m * 2 ^ (e - d))) /\
    (forall b, 0 <= b -> m * 2 ^ (e - d) <= F b * 2 ^ (emin - d) -> r <= b).
Proof.
  intros Hm Hde Hdm. pose proof B_pos as HB. pose proof (pow2_pos (emin - d) ltac:(lia)) as Hs.
  assert (Hinf : 0 <= f_inf p x).
  { unfold f_inf. pose proof (pow2_pos x ltac:(lia)). nia. }
  unfold f_round. destruct (Z.eqb_spec m 0) as [->|Hm0].
  { exists 0. rewrite F_0. split; [lia|]. split; [lia|]. split; intros; lia. }
  set (e' := Z.max (Z.log2 m + 1 + e - p) emin). set (k := e' - e).
  pose proof (Z.log2_spec m ltac:(lia)) as HL. pose proof (Z.log2_nonneg m) as HL0.
  assert (HR : forall q, 0 <= q <= 2 * B -> B <= q \/ e' = emin ->
            F ((e' - emin) * B + q) * 2 ^ (emin - d) = q * 2 ^ (e' - d)).
  { intros q Hq Hc. rewrite F_canon by lia. rewrite <- Z.mul_assoc, <- Z.pow_add_r by lia. f_equal. f_equal. lia. }
  destruct (Z.leb_spec k 0) as [Hk|Hk].
  - set (q := m * 2 ^ (- k)).
    assert (Hq : 0 <= q <= 2 * B /\ (B <= q \/ e' = emin)).
    { assert (HLq : 2 ^ (Z.log2 m + - k) <= q < 2 ^ (Z.log2 m + 1 + - k)).
      { unfold q. rewrite (Z.pow_add_r 2 (Z.log2 m)), (Z.pow_add_r 2 (Z.log2 m + 1)) by lia.
        change (Z.succ (Z.log2 m)) with (Z.log2 m + 1) in HL. pose proof (pow2_pos (- k) ltac:(lia)).
        split; [apply Z.mul_le_mono_nonneg_r; lia|apply Z.mul_lt_mono_pos_r; lia]. }
      split.
      - rewrite two_B. split; [pose proof (pow2_pos (Z.log2 m + - k) ltac:(lia)); lia|].
        assert (2 ^ (Z.log2 m + 1 + - k) <= 2 ^ p) by (apply Z.pow_le_mono_r; lia). lia.
      - destruct (Z.le_gt_cases (Z.log2 m + 1 + e - p) emin); [right; lia|left].
        assert (2 ^ (p - 1) <= 2 ^ (Z.log2 m + - k)) by (apply Z.pow_le_mono_r; lia). lia. }
    exists ((e' - emin) * B + q). pose proof (HR q (proj1 Hq) (proj2 Hq)) as HF.
    assert (Hx' : q * 2 ^ (e' - d) = m * 2 ^ (e - d)).
    { unfold q. rewrite <- Z.mul_assoc, <- Z.pow_add_r by lia. f_equal. f_equal. lia. }
    rewrite HF, Hx'. split; [nia|]. split; [reflexivity|]. split; [intros; lia|].
    intros b Hb Hle. destruct (Z.le_gt_cases ((e' - emin) * B + q) b); [assumption|]. exfalso.
    pose proof (F_lt b ((e' - emin) * B + q) ltac:(lia)). nia.
  - set (q0 := m / 2 ^ k). set (rr := m mod 2 ^ k).
    pose proof (pow2_pos k ltac:(lia)) as HK. pose proof (Z.div_mod m (2 ^ k) ltac:(lia)) as HDM.
    pose proof (Z.mod_pos_bound m (2 ^ k) HK) as HRR. fold q0 rr in HDM, HRR.
    pose proof (Z.div_pos m (2 ^ k) Hm HK) as Hq0. fold q0 in Hq0.
    assert (Hq : q0 + 1 <= 2 * B /\ (B <= q0 \/ e' = emin)).
    { rewrite two_B. split.
      - assert (q0 < 2 ^ p); [|lia]. apply Z.div_lt_upper_bound; [lia|]. rewrite <- Z.pow_add_r by lia.
        assert (2 ^ Z.succ (Z.log2 m) <= 2 ^ (k + p)) by (apply Z.pow_le_mono_r; lia). lia.
      - destruct (Z.le_gt_cases (Z.log2 m + 1 + e - p) emin); [right; lia|left].
        apply Z.div_le_lower_bound; [lia|]. rewrite <- Z.pow_add_r by lia.
        replace (k + (p - 1)) with (Z.log2 m) by lia. lia. }
    assert (HF0 : F ((e' - emin) * B + q0) * 2 ^ (emin - d) = q0 * 2 ^ k * 2 ^ (e - d)).
    { rewrite HR by lia. rewrite <- Z.mul_assoc, <- Z.pow_add_r by lia. f_equal. f_equal. lia. }
    assert (HF1 : F ((e' - emin) * B + (q0 + 1)) * 2 ^ (emin - d) = (q0 + 1) * 2 ^ k * 2 ^ (e - d)).
    { rewrite HR by lia. rewrite <- Z.mul_assoc, <- Z.pow_add_r by lia. f_equal. f_equal. lia. }
    pose proof (pow2_pos (e - d) ltac:(lia)) as Hed.
    set (b0 := (e' - emin) * B + q0) in *.
    replace ((e' - emin) * B + (q0 + 1)) with (b0 + 1) in HF1 by (unfold b0; lia).
    assert (Hb0 : 0 <= b0) by (unfold b0; nia).
    set (X := m * 2 ^ (e - d)).
    assert (HX0 : F b0 * 2 ^ (emin - d) = X - rr * 2 ^ (e - d)) by (rewrite HF0; unfold X; rewrite HDM; ring).
    assert (HX1 : F (b0 + 1) * 2 ^ (emin - d) = X + (2 ^ k - rr) * 2 ^ (e - d)) by (rewrite HF1; unfold X; rewrite HDM; ring).
    assert (Hlow : forall b, 0 <= b -> b <= b0 -> F b * 2 ^ (emin - d) <= F b0 * 2 ^ (emin - d)).
    { intros b Hb Hle. pose proof (F_le b b0 ltac:(lia)). nia. }
    assert (Hhigh : forall b, b0 < b -> F (b0 + 1) * 2 ^ (emin - d) <= F b * 2 ^ (emin - d)).
    { intros b Hb. pose proof (F_le (b0 + 1) b ltac:(lia)). nia. }
    set (rs := rr * 2 ^ (e - d)) in *. set (us := (2 ^ k - rr) * 2 ^ (e - d)) in *.
    assert (Hrs : 0 <= rs) by (unfold rs; nia). assert (Hus : 0 < us) by (unfold us; nia).
    destruct ((2 * rr <? 2 ^ k) || ((2 * rr =? 2 ^ k) && Z.even q0)) eqn:Ed.
    + assert (Hd : 2 * rr <= 2 ^ k).
      { apply orb_true_iff in Ed as [H|H]; [apply Z.ltb_lt in H; lia|]. apply andb_true_iff in H as [H _]. apply Z.eqb_eq in H. lia. }
      exists b0. split; [exact Hb0|]. split; [reflexivity|]. assert (rs <= us) by (unfold rs, us; nia). split.
      * intros b Hb. destruct (Z.le_gt_cases b b0) as [Hc|Hc]; [specialize (Hlow b Hb Hc)|specialize (Hhigh b Hc)]; fold X; lia.
      * intros b Hb Hle. fold X in Hle. destruct (Z.le_gt_cases b0 b); [assumption|]. exfalso.
        pose proof (F_lt b b0 ltac:(lia)). nia.
    + assert (Hd : 2 ^ k <= 2 * rr).
      { apply orb_false_iff in Ed as [H _]. apply Z.ltb_ge in H. lia. }
      exists (b0 + 1). split; [lia|]. split; [f_equal; unfold b0; lia|]. assert (us <= rs) by (unfold rs, us; nia).
      assert (0 < rs) by (unfold rs; nia). split.
      * intros b Hb. destruct (Z.le_gt_cases b b0) as [Hc|Hc]; [specialize (Hlow b Hb Hc)|specialize (Hhigh b Hc)]; fold X; lia.
      * intros b Hb Hle. fold X in Hle. destruct (Z.le_gt_cases (b0 + 1) b); [assumption|]. exfalso.
        specialize (Hlow b Hb ltac:(lia)). lia.
Qed.

Lemma mag_dyadic b d : 0 <= b -> d <= emin ->
  (dyadic (f_mant p b) (f_exp p x b) == Qmake (F b * 2 ^ (emin - d)) (Z.to_pos (2 ^ (- d))))%Q.
Proof.
  intros Hb Hd. pose proof emin_neg. pose proof (exp_ge b Hb).
  rewrite (dyadic_scale _ _ d) by lia. unfold F. rewrite <- Z.mul_assoc, <- Z.pow_add_r by lia.
  replace (f_exp p x b - emin + (emin - d)) with (f_exp p x b - d) by lia. reflexivity.
Qed.

(** *** Signs *)
Lemma sign_bit_split : f_sign_bit p x = 2 ^ x * B.
Proof. unfold f_sign_bit. rewrite <- Z.pow_add_r by lia. f_equal. lia. Qed.
Lemma inf_lt_sign : f_inf p x + B = f_sign_bit p x.
Proof. rewrite sign_bit_split. unfold f_inf. ring. Qed.
Lemma inf_pos : 0 < f_inf p x.
Proof. unfold f_inf. pose proof B_pos. assert (2 ^ 1 <= 2 ^ x) by (apply Z.pow_le_mono_r; lia). change (2 ^ 1) with 2 in *. nia. Qed.
Lemma two_sign : 2 ^ (p + x) = f_sign_bit p x + f_sign_bit p x.
Proof. unfold f_sign_bit. replace (p + x) with (1 + (p + x - 1)) at 1 by lia. rewrite Z.pow_add_r by lia. change (2 ^ 1) with 2. ring. Qed.
Lemma signed_ok neg b : 0 <= b < f_sign_bit p x ->
  0 <= f_signed p x neg b < 2 ^ (p + x) /\ f_neg p x (f_signed p x neg b) = neg /\ f_mag p x (f_signed p x neg b) = b.
Proof.
  intros Hb. rewrite two_sign. unfold f_signed, f_mag, f_neg. destruct neg.
  - destruct (Z.leb_spec (f_sign_bit p x) (b + f_sign_bit p x)); [|lia]. repeat split; try lia.
  - destruct (Z.leb_spec (f_sign_bit p x) b); [lia|]. repeat split; try lia.
Qed.
Lemma mag_ok v : 0 <= v < 2 ^ (p + x) -> 0 <= f_mag p x v < f_sign_bit p x.
Proof. rewrite two_sign. unfold f_mag, f_neg. destruct (Z.leb_spec (f_sign_bit p x) v); lia. Qed.
End Float.

(** *** Rationals over one denominator *)
Lemma over_sub a b u : (Qmake a u - Qmake b u == Qmake (a - b) u)%Q.
Proof. unfold Qeq, Qminus, Qplus, Qopp. cbn. nia. Qed.
Lemma over_abs a u : (Qabs (Qmake a u) == Qmake (Z.abs a) u)%Q.
Proof. reflexivity. Qed.
Lemma over_le a b u : (Qmake a u <= Qmake b u)%Q <-> a <= b.
Proof. unfold Qle. cbn. nia. Qed.
Lemma over_eq a b u : (Qmake a u == Qmake b u)%Q <-> a = b.
Proof. unfold Qeq. cbn. nia. Qed.
Definition with_sign (neg : bool) (q : Q) : Q := if neg then Qopp q else q.
Definition zsign (neg : bool) (z : Z) : Z := if neg then - z else z.
Lemma over_sign neg a u : (with_sign neg (Qmake a u) == Qmake (zsign neg a) u)%Q.
Proof. destruct neg; reflexivity. Qed.
Lemma with_sign_eq neg a b : (a == b)%Q -> (with_sign neg a == with_sign neg b)%Q.
Proof. destruct neg; cbn; intros ->; reflexivity. Qed.

(** What NumericSpec.v says, in the words of Numeric.v. *)
Lemma integer_shape k : integer k <-> match shape_of k with SInt _ _ => True | SFloat _ _ => False end.
Proof. unfold integer. destruct k; cbn; split; (reflexivity || tauto || discriminate). Qed.
Lemma number_shape k v :
  number k v <-> match shape_of k with
                 | SInt s b => int_min s b <= v <= int_max s b
                 | SFloat p x => 0 <= v < 2 ^ (p + x)
                 end.
Proof. destruct k; reflexivity. Qed.
Lemma float_shape k p x : shape_of k = SFloat p x -> float_bits k = Some (x, p - 1) /\ 2 <= p /\ 2 <= x.
Proof. destruct k; cbn; intros [= <- <-]; split; (reflexivity || lia). Qed.
Lemma int_shape k s b : shape_of k = SInt s b -> float_bits k = None.
Proof. destruct k; cbn; intros [=]; reflexivity. Qed.
Lemma fields_shape p x v : 2 <= p -> 2 <= x ->
  fields x (p - 1) v = (f_neg p x v, f_mag p x v / 2 ^ (p - 1), f_mag p x v mod 2 ^ (p - 1)).
Proof.
  intros Hp Hx. unfold fields, f_mag, f_neg, f_sign_bit. replace (x + (p - 1)) with (p + x - 1) by lia. reflexivity.
Qed.
Lemma div_lt_pow b x f : 0 <= f -> (b / 2 ^ f <? 2 ^ x - 1) = (b <? (2 ^ x - 1) * 2 ^ f).
Proof.
  intros Hf. pose proof (Z.pow_pos_nonneg 2 f ltac:(lia) Hf) as H2.
  pose proof (Z.div_mod b (2 ^ f) ltac:(lia)). pose proof (Z.mod_pos_bound b (2 ^ f) H2).
  apply Bool.eq_iff_eq_true. rewrite !Z.ltb_lt. nia.
Qed.
Lemma num_value_shape k v :
  num_value k v = match shape_of k with
                  | SInt _ _ => Some (inject_Z v)
                  | SFloat p x =>
                      let b := f_mag p x v in
                      if b <? f_inf p x then
                        Some (let q := dyadic (f_mant p b) (f_exp p x b) in if f_neg p x v then Qopp q else q)
                      else None
                  end.
Proof.
  unfold num_value. destruct (shape_of k) as [s b|p x] eqn:E; [now rewrite (int_shape k s b E)|].
  destruct (float_shape k p x E) as (-> & Hp & Hx). rewrite fields_shape, div_lt_pow by lia.
  cbn zeta. unfold f_inf. destruct (_ <? _); [|reflexivity]. f_equal. unfold f_mant, f_exp, f_emin.
  set (E' := f_mag p x v / 2 ^ (p - 1)). set (M := f_mag p x v mod 2 ^ (p - 1)).
  replace (1 - (2 ^ (x - 1) - 1) - (p - 1)) with (3 - 2 ^ (x - 1) - p) by lia.
  replace (E' - (2 ^ (x - 1) - 1) - (p - 1)) with (3 - 2 ^ (x - 1) - p + E' - 1) by lia.
  rewrite (Z.add_comm (2 ^ (p - 1)) M). destruct (E' =? 0); reflexivity.
Qed.
Lemma is_nan_shape k v : number k v ->
  (is_nan k v <-> match shape_of k with SInt _ _ => False | SFloat p x => f_inf p x < f_mag p x v end).
Proof.
  rewrite number_shape. unfold is_nan. destruct (shape_of k) as [s b|p x] eqn:E; [now rewrite (int_shape k s b E)|].
  destruct (float_shape k p x E) as (-> & Hp & Hx). rewrite fields_shape by lia. intros Hv. unfold f_inf.
  pose proof (mag_ok p x Hp Hx v Hv) as Hm. unfold f_sign_bit in Hm.
  replace (p + x - 1) with (x + (p - 1)) in Hm by lia. rewrite Z.pow_add_r in Hm by lia.
  pose proof (Z.pow_pos_nonneg 2 (p - 1) ltac:(lia) ltac:(lia)) as H2.
  pose proof (Z.div_mod (f_mag p x v) (2 ^ (p - 1)) ltac:(lia)). pose proof (Z.mod_pos_bound (f_mag p x v) (2 ^ (p - 1)) H2).
  set (e := f_mag p x v / 2 ^ (p - 1)) in *. set (m := f_mag p x v mod 2 ^ (p - 1)) in *.
  split; [intros [-> ?]; nia|]. intros Hlt. assert (e = 2 ^ x - 1) by nia. split; [assumption|]. nia.
Qed.
Lemma is_inf_shape k neg v :
  is_inf k neg v <-> match shape_of k with
                     | SInt _ _ => False
                     | SFloat p x => f_mag p x v = f_inf p x /\ f_neg p x v = neg
                     end.
Proof.
  unfold is_inf. destruct (shape_of k) as [s b|p x] eqn:E; [now rewrite (int_shape k s b E)|].
  destruct (float_shape k p x E) as (-> & Hp & Hx). rewrite fields_shape by lia. unfold f_inf.
  pose proof (Z.pow_pos_nonneg 2 (p - 1) ltac:(lia) ltac:(lia)) as H2.
  split.
  - intros [= <- He Hm]. split; [|reflexivity]. pose proof (Z.div_mod (f_mag p x v) (2 ^ (p - 1)) ltac:(lia)). nia.
  - intros [-> <-]. rewrite Z.div_mul, Z.mod_mul by lia. reflexivity.
Qed.

(** The value of a float. *)
Lemma float_value k p x v : shape_of k = SFloat p x ->
  num_value k v = if f_mag p x v <? f_inf p x
              then Some (with_sign (f_neg p x v) (dyadic (f_mant p (f_mag p x v)) (f_exp p x (f_mag p x v)))) else None.
Proof. intros E. rewrite num_value_shape, E. cbn zeta. destruct (_ <? _); reflexivity. Qed.

Lemma shapes k p x : shape_of k = SFloat p x -> 2 <= p /\ 2 <= x.
Proof. destruct k; cbn; intros [= <- <-]; lia. Qed.

(** Rounding gives the closest float, or overflows. *)
Lemma to_float k p x neg m e : shape_of k = SFloat p x -> 0 <= m ->
  let q := with_sign neg (dyadic m e) in let y := f_signed p x neg (f_round p x m e) in
  number k y /\ (num_value k y <> None -> closest k y q) /\ (num_value k y = None -> is_inf k neg y) /\
  ((exists v r, number k v /\ num_value k v = Some r /\ (Qabs q <= Qabs r)%Q) -> num_value k y <> None).
Proof.
  intros E Hm q y. destruct (shapes _ _ _ E) as [Hp Hx].
  set (d := Z.min (Z.min e 0) (f_emin p x)). pose proof (emin_neg p x Hp Hx) as Hem.
  destruct (round_spec p x Hp Hx m e d Hm ltac:(lia) ltac:(lia)) as (r & Hr & ER & Hnear & Hbelow).
  pose proof (inf_pos p x Hp Hx) as Hinf. pose proof (inf_lt_sign p x Hp Hx) as Hsb. pose proof (B_pos p Hp) as HB.
  assert (Hf : 0 <= f_round p x m e < f_sign_bit p x) by (rewrite ER; lia).
  destruct (signed_ok p x Hp Hx neg _ Hf) as (Hn & HN & HM). fold y in Hn, HN, HM.
  set (u := Z.to_pos (2 ^ (- d))). set (X := m * 2 ^ (e - d)) in *.
  assert (Hq : (q == Qmake (zsign neg X) u)%Q).
  { unfold q. rewrite (with_sign_eq neg _ _ (dyadic_scale m e d ltac:(lia) ltac:(lia))). apply over_sign. }
  assert (HX : 0 <= X) by (unfold X; pose proof (pow2_pos (e - d) ltac:(lia)); nia).
  set (W b := F p x b * 2 ^ (f_emin p x - d)) in *.
  assert (HW : forall v, number k v -> f_mag p x v < f_inf p x ->
             (with_sign (f_neg p x v) (dyadic (f_mant p (f_mag p x v)) (f_exp p x (f_mag p x v)))
              == Qmake (zsign (f_neg p x v) (W (f_mag p x v))) u)%Q).
  { intros v Hv _. apply number_shape in Hv. rewrite E in Hv. pose proof (mag_ok p x Hp Hx v Hv).
    rewrite (with_sign_eq _ _ _ (mag_dyadic p x Hp Hx (f_mag p x v) d ltac:(lia) ltac:(lia))). apply over_sign. }
  assert (HW0 : forall b, 0 <= b -> 0 <= W b).
  { intros b Hb. unfold W. pose proof (F_le p x Hp 0 b ltac:(lia)) as H0. rewrite F_0 in H0 by assumption.
    pose proof (pow2_pos (f_emin p x - d) ltac:(lia)). nia. }
  assert (Hny : number k y) by (apply number_shape; rewrite E; exact Hn).
  split; [exact Hny|]. rewrite (float_value k p x y E), HM, HN. split; [|split].
  - destruct (Z.ltb_spec (f_round p x m e) (f_inf p x)) as [Hl|Hl]; [|congruence]. intros _.
    eexists. split; [rewrite (float_value k p x y E), HM, HN; destruct (Z.ltb_spec (f_round p x m e) (f_inf p x)); [reflexivity|lia]|].
    intros v r' Hv Hv'. rewrite (float_value k p x v E) in Hv'.
    destruct (Z.ltb_spec (f_mag p x v) (f_inf p x)) as [Hl'|]; [|discriminate]. injection Hv' as <-.
    pose proof (HW y Hny ltac:(lia)) as H1. rewrite HM, HN in H1. rewrite H1, (HW v Hv Hl'), Hq.
    rewrite !over_sub, !over_abs, over_le.
    assert (Er : f_round p x m e = r) by lia. rewrite Er.
    apply number_shape in Hv. rewrite E in Hv. pose proof (mag_ok p x Hp Hx v Hv) as Hvm.
    pose proof (Hnear (f_mag p x v) ltac:(lia)) as H2. pose proof (Hnear 0 ltac:(lia)) as H3.
    change (Z.abs (W r - X) <= Z.abs (W (f_mag p x v) - X)) in H2. change (Z.abs (W r - X) <= Z.abs (W 0 - X)) in H3.
    assert (E0 : W 0 = 0) by (unfold W; rewrite F_0 by assumption; reflexivity). rewrite E0 in H3.
    pose proof (HW0 (f_mag p x v) ltac:(lia)). unfold zsign. destruct neg, (f_neg p x v); lia.
  - destruct (Z.ltb_spec (f_round p x m e) (f_inf p x)) as [Hl|Hl]; [discriminate|]. intros _.
    apply is_inf_shape. rewrite E, HM, HN. split; [lia|reflexivity].
  - intros (v & r' & Hv & Hv' & Hle). rewrite (float_value k p x v E) in Hv'.
    destruct (Z.ltb_spec (f_mag p x v) (f_inf p x)) as [Hl'|]; [|discriminate]. injection Hv' as <-.
    rewrite Hq, (HW v Hv Hl'), !over_abs, over_le in Hle.
    apply number_shape in Hv. rewrite E in Hv. pose proof (mag_ok p x Hp Hx v Hv) as Hvm.
    pose proof (HW0 (f_mag p x v) ltac:(lia)).
    assert (r <= f_mag p x v). { apply Hbelow; [lia|]. change (X <= W (f_mag p x v)). unfold zsign in Hle. destruct neg, (f_neg p x v); lia. }
    destruct (Z.ltb_spec (f_round p x m e) (f_inf p x)); [discriminate|lia].
Qed.

Lemma closest_exact k y q : closest k y q -> representable k q -> stands_for k y q.
Proof.
  intros (r & Hr & Hc) (v & r' & Hv & Hv' & Hq). exists r. split; [exact Hr|].
  specialize (Hc v r' Hv Hv'). rewrite Hq in Hc.
  assert (H0 : (Qabs (q - q) == 0)%Q) by (unfold Qminus; rewrite Qplus_opp_r; reflexivity).
  rewrite H0 in Hc. pose proof (Qabs_nonneg (r - q)) as Hn.
  assert (Hz : (Qabs (r - q) == 0)%Q) by lra. pose proof (Qle_Qabs (r - q)). pose proof (Qle_Qabs (- (r - q))).
  rewrite Qabs_opp in H1. lra.
Qed.
