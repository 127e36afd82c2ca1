(** How often pushing allocates (C84). *)

From Verif Require Import CopyFacts4.
Import ListNotations.
Open Scope N_scope.

(** Pushing the values of a list one after the other with a given [push] ([true] for [Some], as in
    src/vec_copy.rs:322-332): stops at the first call that does not say [Some]. *)
Fixpoint push_each {B : Type} (push : payload -> B -> world -> outcome bool * B * world)
    (vs : list payload) (b : B) (w : world) : outcome bool * B * world :=
  match vs with
  | [] => (Ret true, b, w)
  | v :: vs =>
      match push v b w with
      | (Ret true, b', w') => push_each push vs b' w'
      | r => r
      end
  end.

(** [g] blocks were asked of the allocator between [w] and [w']: every allocation and reallocation
    takes the next block number. *)
Definition allocations (w w' : world) (g : N) : Prop := w_next w' = w_next w + g.

(** The capacity [Vec] takes when a full vector with [n] elements of [sz] bytes grows by one. *)
Definition grown (sz n : N) : N := N.max (min_non_zero_cap sz) (2 * N.max n 1).

Section Grow.
Context (P : profile) (G : tenv) (HG : wf_tenv G).

Lemma v_grow_next sz al add v w v' w' :
  v_grow sz al add v w = (Ret tt, v', w') -> sz <> 0 -> 1 <= add -> w_next w' = w_next w + 1.
Proof.
  unfold v_grow. intros HE Hz Ha. destruct (sz =? 0) eqn:E; [discriminate|].
  destruct (usize_max <? _); [discriminate|].
  destruct (max_alloc al <? _) eqn:E2; [discriminate|].
  destruct (dealloc _ _ _ _) as [[[]| | |] w1] eqn:ED; try discriminate.
  assert (Hn : w_next w1 = w_next w).
  { unfold dealloc in ED. revert ED.
    repeat match goal with |- context [match ?x with _ => _ end] => destruct x end;
      intros ED; try discriminate; injection ED as <-; reflexivity. }
  unfold alloc in HE.
  destruct (_ * sz =? 0) eqn:E3.
  { apply N.eqb_eq in E3. nia. }
  injection HE as <- <-. cbn. lia.
Qed.

(** What one push of a value of the stored type does. *)
Inductive push_exact (t : tyid) (d : vecvoid) (xs : list payload) (v : payload) (w : world)
    (l : list block) : outcome unit * vecvoid * world -> Prop :=
| PX_room d' :
    lenN xs < vv_cap d -> Rep G t d' (xs ++ [v]) -> Owns w (vv_own d' ++ l) ->
    vv_cap d' = vv_cap d ->
    push_exact t d xs v w l (Ret tt, d', w)
| PX_grow d' w' :
    lenN xs = vv_cap d -> Rep G t d' (xs ++ [v]) -> Owns w' (vv_own d' ++ l) ->
    w_trace w' = w_trace w -> w_next w' = w_next w + 1 ->
    vv_cap d' = grown (t_size (G t)) (lenN xs) ->
    push_exact t d xs v w l (Ret tt, d', w').

Lemma grown_pos sz n : 1 <= n -> grown sz n = N.max (min_non_zero_cap sz) (N.max (n * 2) (n + 1)).
Proof. unfold grown. lia. Qed.

Lemma push_as_exact t d xs v w l :
  Rep G t d xs -> Owns w (vv_own d ++ l) ->
  lenN xs < vv_cap d \/ grown (t_size (G t)) (lenN xs) * t_size (G t) <= max_alloc (t_align (G t)) ->
  push_exact t d xs v w l (apply_unchecked P G t (push_closure G t v) d w).
Proof using HG.
  intros H HO Hroom. unfold apply_unchecked. rewrite (into_vec_unchecked_rep P G HG _ _ _ H).
  pose proof (rep_sized _ _ _ _ H) as Hz. unfold push_closure, v_push.
  rewrite v_capacity_sized by exact Hz. cbn [v_len v_cap].
  pose proof (typed_ok G _ _ _ H) as Hok.
  pose proof (rep_cap1 _ _ _ _ H) as H1.
  assert (HO' : Owns w (v_own (t_size (G t)) (t_align (G t))
                          (SVec (vv_blk d) (lenN xs) (vv_cap d) (encs G t xs)) ++ l)).
  { unfold v_own. cbn. now rewrite <- (rep_own G HG t d xs H). }
  assert (Hlen : lenN (xs ++ [v]) = lenN xs + 1) by (rewrite lenN_app; reflexivity).
  assert (Henc : encs G t xs ++ enc G t v = encs G t (xs ++ [v])) by now rewrite encs_app, encs_one.
  destruct (lenN xs =? vv_cap d) eqn:E.
  - apply N.eqb_eq in E.
    destruct (v_grow_spec (t_size (G t)) (t_align (G t)) 1 _ w l Hz Hok HO')
      as [(b & w' & HE & Hm & _ & Hpt & HO2 & Ht)|[HE Hcap]]; rewrite HE.
    + pose proof (v_grow_next _ _ _ _ _ _ _ HE Hz ltac:(lia)) as Hn.
      set (c := grow_cap _ _ _) in *. cbn [v_blk v_len v_cap v_bytes].
      assert (Hc : lenN xs + 1 <= c).
      { unfold c, grow_cap. cbn [v_cap v_len]. lia. }
      rewrite Henc, <- Hlen.
      destruct (vv_from_vec_ok G HG t b (xs ++ [v]) c w') as (HF & HR & HOw); try assumption; try lia.
      { apply Hpt. nia. }
      rewrite HF. apply PX_grow; try assumption; cbn; try lia. now rewrite HOw.
      rewrite grown_pos by lia. unfold c, grow_cap. cbn [v_cap v_len]. now rewrite <- E.
    + exfalso. destruct Hroom as [Hr|Hr]; [lia|]. rewrite grown_pos in Hr by lia.
      unfold grow_cap in Hcap. cbn [v_cap v_len] in Hcap. rewrite <- E in Hcap.
      destruct Hcap as [Hcap|Hcap]; [|lia].
      pose proof (max_alloc_le (t_align (G t))).
      assert (isize_max < usize_max) by (vm_compute; reflexivity). nia.
  - apply N.eqb_neq in E. cbn [v_blk v_len v_cap v_bytes]. rewrite Henc, <- Hlen.
    pose proof (rep_cap _ _ _ _ H).
    destruct (vv_from_vec_ok G HG t (vv_blk d) (xs ++ [v]) (vv_cap d) w) as (HF & HR & HOw); try apply H.
    { lia. }
    rewrite HF. apply PX_room; try assumption; cbn; try lia; auto.
    now rewrite HOw, <- (rep_own G HG t d xs H).
Qed.

Lemma vv_push_exact t d xs v w l :
  Rep G t d xs -> Owns w (vv_own d ++ l) -> t_size (G t) = t_align (G t) ->
  lenN xs < vv_cap d \/ grown (t_size (G t)) (lenN xs) * t_size (G t) <= max_alloc (t_align (G t)) ->
  push_exact t d xs v w l (vv_push P (enc G t v) d w).
Proof using HG.
  intros H HO Hsa Hroom. unfold vv_push. rewrite (dispatch_rep P G HG t d xs) by exact H.
  pose proof (rep_len _ _ _ _ H) as HL. pose proof (rep_cap1 _ _ _ _ H) as H1.
  pose proof (wf_align_pos G t HG) as Hap.
  assert (Hk : chunks_of G t = 1).
  { unfold chunks_of. rewrite Hsa. apply N.div_same. lia. }
  destruct (lenN (enc G t v) <? t_align (G t)) eqn:E.
  { apply N.ltb_lt in E. rewrite enc_length in E. lia. }
  rewrite firstnN_all by (rewrite enc_length; lia).
  assert (Hlen : lenN (xs ++ [v]) = lenN xs + 1) by (rewrite lenN_app; reflexivity).
  assert (Henc : encs G t xs ++ enc G t v = encs G t (xs ++ [v])) by now rewrite encs_app, encs_one.
  unfold v_push. rewrite v_capacity_sized by lia.
  assert (Hvl : v_len (carrier G t d) = lenN xs) by (unfold carrier; cbn; rewrite HL, Hk; lia).
  assert (Hvc : v_cap (carrier G t d) = vv_cap d) by (unfold carrier; cbn; rewrite Hk; lia).
  rewrite Hvl, Hvc.
  destruct (lenN xs =? vv_cap d) eqn:E1.
  - apply N.eqb_eq in E1.
    destruct (v_grow_spec (t_align (G t)) (t_align (G t)) 1 (carrier G t d) w l ltac:(lia) (carrier_ok G HG _ _ _ H))
      as [(b & w' & HE & Hm & _ & Hpt & HO2 & Ht)|[HE Hcap]].
    { now rewrite (carrier_own G HG _ _ _ H). }
    + rewrite HE. pose proof (v_grow_next _ _ _ _ _ _ _ HE ltac:(lia) ltac:(lia)) as Hn.
      assert (Hgc : grow_cap (t_align (G t)) 1 (carrier G t d) = grown (t_size (G t)) (lenN xs)).
      { rewrite grown_pos by lia. unfold grow_cap. now rewrite Hvl, Hvc, Hsa, E1. }
      rewrite Hgc in *. cbn [v_blk v_len v_cap v_bytes].
      assert (Hg1 : lenN xs + 1 <= grown (t_size (G t)) (lenN xs)) by (unfold grown; lia).
      rewrite Hvl. change (v_bytes (carrier G t d)) with (vv_bytes d).
      rewrite (rep_bytes _ _ _ _ H), Henc.
      destruct (rebuild P G HG t (xs ++ [v]) b (grown (t_size (G t)) (lenN xs))) as (HF & HR & HOw);
        try assumption; try apply H; try lia.
      { apply Hpt. nia. }
      rewrite Hk, !N.mul_1_r in HF. rewrite <- Hlen, HF.
      apply PX_grow; try assumption; try reflexivity.
      rewrite HOw. rewrite Hsa in HO2 |- *. exact HO2.
    + exfalso. rewrite grown_pos in Hroom by lia. unfold grow_cap in Hcap. rewrite Hvl, Hvc in Hcap.
      rewrite E1 in *.
      pose proof (max_alloc_le (t_align (G t))).
      assert (isize_max < usize_max) by (vm_compute; reflexivity).
      destruct Hroom as [Hr|Hr]; [lia|]. rewrite Hsa in Hr. destruct Hcap as [Hcap|Hcap]; nia.
  - apply N.eqb_neq in E1. pose proof (rep_cap _ _ _ _ H).
    change (v_bytes (carrier G t d)) with (vv_bytes d).
    rewrite (rep_bytes _ _ _ _ H), Henc.
    destruct (rebuild P G HG t (xs ++ [v]) (vv_blk d) (vv_cap d)) as (HF & HR & HOw); try apply H.
    { lia. }
    rewrite Hk, !N.mul_1_r in HF.
    cbn iota beta. rewrite Hvl, Hvc. change (v_blk (carrier G t d)) with (vv_blk d). rewrite <- Hlen, HF.
    apply PX_room; try assumption; try reflexivity; try lia.
    rewrite HOw, <- (rep_own G HG _ _ _ H). exact HO.
Qed.

(** Each growth at least doubles the capacity and happens at a full buffer, so the number of
    growths is logarithmic in the final length. *)
Lemma push_each_count {W : Type} (push : payload -> veccopy W -> world -> outcome bool * veccopy W * world) t
    (Hpush : forall d vt xs v w l,
       Rep G t d xs -> Owns w (vv_own d ++ l) ->
       lenN xs < vv_cap d \/ grown (t_size (G t)) (lenN xs) * t_size (G t) <= max_alloc (t_align (G t)) ->
       exists d' w', push v (VecCopy d vt) w = (Ret true, VecCopy d' vt, w') /\
                     push_exact t d xs v w l (Ret tt, d', w')) :
  forall vs d vt xs w l,
  Rep G t d xs -> Owns w (vv_own d ++ l) ->
  lenN (xs ++ vs) <= vv_cap d \/
    grown (t_size (G t)) (lenN (xs ++ vs)) * t_size (G t) <= max_alloc (t_align (G t)) ->
  exists d' w' g,
    push_each push vs (VecCopy d vt) w = (Ret true, VecCopy d' vt, w') /\
    Rep G t d' (xs ++ vs) /\ Owns w' (vv_own d' ++ l) /\ w_trace w' = w_trace w /\
    allocations w w' g /\ (g = 0 -> w' = w /\ vv_cap d' = vv_cap d) /\
    (g <> 0 -> 2 ^ (g - 1) * vv_cap d < lenN (xs ++ vs)) /\
    vv_cap d <= vv_cap d' /\
    vv_cap d' <= N.max (vv_cap d) (N.max (min_non_zero_cap (t_size (G t))) (2 * lenN (xs ++ vs))).
Proof using.
  induction vs as [|v vs IH]; intros d vt xs w l HR HO Hroom.
  - exists d, w, 0. rewrite app_nil_r. unfold allocations. csplit; auto; try lia. 
  - assert (Hl1 : lenN (xs ++ [v]) = lenN xs + 1) by (rewrite lenN_app; reflexivity).
    assert (Hl2 : lenN (xs ++ v :: vs) = lenN xs + 1 + lenN vs).
    { rewrite lenN_app. unfold lenN. cbn [List.length]. lia. }
    assert (Hl3 : lenN ((xs ++ [v]) ++ vs) = lenN xs + 1 + lenN vs) by (rewrite lenN_app; lia).
    pose proof (rep_cap1 _ _ _ _ HR) as Hc1.
    destruct (Hpush d vt xs v w l HR HO) as (d1 & w1 & HE & HX).
    { destruct Hroom as [Hr|Hr]; [left; lia|right]. revert Hr. rewrite Hl2. unfold grown.
      intros Hr. nia. }
    cbn [push_each]. rewrite HE.
    replace (xs ++ v :: vs) with ((xs ++ [v]) ++ vs) in * by (now rewrite <- app_assoc).
    inversion HX as [d1' Hlt HR1 HO1 Hcap|d1' w1' Heq HR1 HO1 Htr Hn Hcap]; subst.
    + destruct (IH d1 vt (xs ++ [v]) w1 l HR1 HO1) as (d' & w' & g & HE' & HR' & HO' & Ht' & Hg & H0 & Hp & Hle & Hup).
      { rewrite Hcap. exact Hroom. }
      rewrite Hcap in *. exists d', w', g. csplit; auto.
    + destruct (IH d1 vt (xs ++ [v]) w1 l HR1 HO1) as (d' & w' & g & HE' & HR' & HO' & Ht' & Hg & H0 & Hp & Hle & Hup).
      { destruct Hroom as [Hr|Hr]; [lia|now right]. }
      exists d', w', (g + 1). unfold allocations in *. csplit; auto; try congruence; try lia.
      * intros _. replace (g + 1 - 1) with g by lia. destruct (N.eq_dec g 0) as [->|Hne].
        { change (2 ^ 0) with 1. lia. }
        specialize (Hp Hne). replace g with (N.succ (g - 1)) by lia. rewrite N.pow_succ_r'.
        assert (2 * vv_cap d <= vv_cap d1) by (rewrite Hcap; unfold grown; lia). nia.
      * rewrite Hcap in *. unfold grown in *. lia.
      * rewrite Hcap in *. unfold grown in *. lia.
Qed.

Lemma log_bound g c n : 1 <= c -> (g <> 0 -> 2 ^ (g - 1) * c < n) -> g <= 1 + N.log2 n.
Proof using.
  intros Hc H. destruct (N.eq_dec g 0) as [->|Hne]; [lia|]. specialize (H Hne).
  assert (g - 1 <= N.log2 n); [|lia]. apply N.log2_le_pow2; nia.
Qed.

End Grow.

Lemma push_as_steps {W : Type} (P : profile) (G : tenv) (HG : wf_tenv G) t :
  forall d (vt : W) xs v w l,
  Rep G t d xs -> Owns w (vv_own d ++ l) ->
  lenN xs < vv_cap d \/ grown (t_size (G t)) (lenN xs) * t_size (G t) <= max_alloc (t_align (G t)) ->
  exists d' w', vc_push_as P G t v (VecCopy d vt) w = (Ret true, VecCopy d' vt, w') /\
                push_exact G t d xs v w l (Ret tt, d', w').
Proof.
  intros d vt xs v w l H HO Hr. pose proof (push_as_exact P G HG t d xs v w l H HO Hr) as HX.
  rewrite (vc_push_as_eq P G t d vt xs v w H).
  destruct (apply_unchecked P G t (push_closure G t v) d w) as [[o d1] w1].
  assert (o = Ret tt) as -> by (now inversion HX). exists d1, w1. auto.
Qed.

(** As long as the values fit, nothing is allocated. *)
Lemma push_as_fit {W : Type} (P : profile) (G : tenv) (HG : wf_tenv G) t d (vt : W) xs vs w l :
  Rep G t d xs -> Owns w (vv_own d ++ l) -> lenN xs + lenN vs <= vv_cap d ->
  exists d', push_each (vc_push_as P G t) vs (VecCopy d vt) w = (Ret true, VecCopy d' vt, w) /\
             Rep G t d' (xs ++ vs) /\ vv_cap d' = vv_cap d.
Proof.
  intros HR HO Hfit. rewrite <- lenN_app in Hfit.
  destruct (push_each_count G (vc_push_as P G t) t (push_as_steps P G HG t) vs d vt xs w l HR HO)
    as (d' & w' & g & HE & HR' & HO' & Ht & Hg & H0 & Hp & Hle & Hup); auto.
  assert (g = 0) as ->.
  { destruct (N.eq_dec g 0) as [E|E]; [exact E|]. specialize (Hp E).
    pose proof (rep_cap1 _ _ _ _ HR). assert (2 ^ (g - 1) <> 0) by (now apply N.pow_nonzero). nia. }
  destruct (H0 eq_refl) as [-> Hcc]. exists d'. auto.
Qed.

Lemma with_capacity_rep {W : Type} (G : tenv) (HG : wf_tenv G) t n (vt : W) w :
  wf_world w -> t_size (G t) <> 0 -> n * t_size (G t) <= max_alloc (t_align (G t)) ->
  exists d w', vc_with_capacity G t n vt w = (Ret (VecCopy d vt), w') /\ Rep G t d [] /\
               Owns w' (vv_own d ++ w_live w) /\ n <= vv_cap d.
Proof.
  intros Hw Hz Hn. assert (HO : Owns w (w_live w)) by now split.
  destruct (vec_make_spec G t n [] w _ Hz HO) as [(i & w1 & HE & Hok & HO1 & _)|[_ Hbad]].
  2:{ unfold lenN in Hbad. cbn [List.length N.of_nat] in Hbad. rewrite N.max_0_r in Hbad. lia. }
  destruct (vc_from_vec_any G HG t i _ [] vt w1 _ Hz Hok HO1) as (d & w' & HF & HR & HO' & _ & Hcap & _).
  exists d, w'. csplit; auto; [|lia].
  unfold vc_with_capacity. unfold vec_make in HE.
  unfold lenN in HE. cbn [List.length N.of_nat] in HE. rewrite N.max_0_r in HE.
  unfold v_with_capacity in *. apply N.eqb_neq in Hz. rewrite Hz in *.
  destruct (_ <=? _); [|discriminate]. destruct (alloc _ _ _) as [j w2].
  injection HE as <- <-. rewrite N.max_0_r in HF. exact HF.
Qed.

Lemma c84_push_as_fact :
  forall (V : Type) (P : profile) (G : tenv) (build : tyid -> V), wf_tenv G ->
  forall b w t xs vs,
  live_buffer P G build b w -> shows G b t xs ->
  lenN (xs ++ vs) <= vc_capacity b \/
    grown (t_size (G t)) (lenN (xs ++ vs)) * t_size (G t) <= max_alloc (t_align (G t)) ->
  exists b' w' g,
    push_each (vc_push_as P G t) vs b w = (Ret true, b', w') /\ shows G b' t (xs ++ vs) /\
    w_trace w' = w_trace w /\
    allocations w w' g /\ g <= 1 + N.log2 (lenN (xs ++ vs)) /\
    (g = 0 \/ 2 ^ (g - 1) * vc_capacity b < lenN (xs ++ vs)) /\ (g = 0 -> w' = w) /\
    vc_capacity b <= vc_capacity b' /\
    vc_capacity b' <= N.max (vc_capacity b) (N.max (min_non_zero_cap (t_size (G t))) (2 * lenN (xs ++ vs))).
Proof.
  intros V P G build HG b w t xs vs Hb Hs Hroom. live Hb Hs HR Hc l HO.
  unfold vc_capacity in *. cbn [vc_data] in *.
  destruct (push_each_count G (vc_push_as P G t) t (push_as_steps P G HG t) vs d vt xs w l HR HO Hroom)
    as (d' & w' & g & HE & HR' & HO' & Ht & Hg & H0 & Hp & Hle & Hup).
  exists (VecCopy d' vt), w', g. csplit; auto.
  - now shw.
  - apply (log_bound g (vv_cap d)); [apply HR|exact Hp].
  - destruct (N.eq_dec g 0) as [E|E]; [now left|right; exact (Hp E)].
  - intros Hz. now apply H0.
Qed.

Lemma c84_push_fact :
  forall (V : Type) (P : profile) (G : tenv) (build : tyid -> V), wf_tenv G ->
  forall b w t xs vs,
  live_buffer P G build b w -> shows G b t xs -> t_size (G t) = t_align (G t) ->
  lenN (xs ++ vs) <= vc_capacity b \/
    grown (t_size (G t)) (lenN (xs ++ vs)) * t_size (G t) <= max_alloc (t_align (G t)) ->
  exists b' w' g,
    push_each (fun v => vc_push P (mk_ref G build t v)) vs b w = (Ret true, b', w') /\
    shows G b' t (xs ++ vs) /\ w_trace w' = w_trace w /\
    allocations w w' g /\ g <= 1 + N.log2 (lenN (xs ++ vs)) /\
    (g = 0 \/ 2 ^ (g - 1) * vc_capacity b < lenN (xs ++ vs)) /\ (g = 0 -> w' = w) /\
    vc_capacity b <= vc_capacity b' /\
    vc_capacity b' <= N.max (vc_capacity b) (N.max (min_non_zero_cap (t_size (G t))) (2 * lenN (xs ++ vs))).
Proof.
  intros V P G build HG b w t xs vs Hb Hs Hsa Hroom. live Hb Hs HR Hc l HO.
  unfold vc_capacity in *. cbn [vc_data] in *.
  destruct (push_each_count G (W := V) (fun v => vc_push P (mk_ref G build t v)) t) with (vs := vs) (d := d) (vt := vt) (xs := xs) (w := w) (l := l)
    as (d' & w' & g & HE & HR' & HO' & Ht & Hg & H0 & Hp & Hle & Hup); auto.
  { intros d0 vt0 ys v w0 l0 H HO0 Hr. pose proof (vv_push_exact P G HG t d0 ys v w0 l0 H HO0 Hsa Hr) as HX.
    unfold vc_push. rewrite (vc_size_rep G HG _ _ _ _ H), (vc_type_rep G _ _ _ _ H).
    unfold mk_ref, copy_ref_new, cr_size. cbn [cr_bytes cr_type_id]. rewrite enc_length, !N.eqb_refl.
    unfold on_data. cbn [vc_data vc_vtable].
    destruct (vv_push P (enc G t v) d0 w0) as [[o d1] w1].
    assert (o = Ret tt) as -> by (now inversion HX). exists d1, w1. auto. }
  exists (VecCopy d' vt), w', g. csplit; auto.
  - now shw.
  - apply (log_bound g (vv_cap d)); [apply HR|exact Hp].
  - destruct (N.eq_dec g 0) as [E|E]; [now left|right; exact (Hp E)].
  - intros Hz. now apply H0.
Qed.

(** After [reserve(n)] the next [n] pushes do not touch the allocator at all. *)
Lemma c84_reserved_fact :
  forall (V : Type) (P : profile) (G : tenv) (build : tyid -> V), wf_tenv G ->
  forall b w t xs n vs,
  live_buffer P G build b w -> shows G b t xs ->
  room G t (vc_capacity b) (lenN xs + n) -> ~ odd_growth G t (vc_capacity b) (lenN xs + n) ->
  lenN vs <= n ->
  exists b1 w1 b',
    vc_reserve P n b w = (Ret tt, b1, w1) /\
    push_each (vc_push_as P G t) vs b1 w1 = (Ret true, b', w1) /\
    shows G b' t (xs ++ vs) /\ vc_capacity b' = vc_capacity b1.
Proof.
  intros V P G build HG b w t xs n vs Hb Hs Hroom Hodd Hn. live Hb Hs HR Hc l HO.
  unfold vc_capacity in *. cbn [vc_data] in *.
  pose proof (room_no_wrap G t d xs n HG HR Hroom) as Hnw.
  pose proof (chunks_le_size G HG t n) as Hcs.
  assert (HD : exists d1 w1, vv_reserve P n d w = (Ret tt, d1, w1) /\ Rep G t d1 xs /\
               Owns w1 (vv_own d1 ++ l) /\ lenN xs + n <= vv_cap d1).
  { pose proof (vv_reserve_rep P G HG t d xs n w l HR HO ltac:(lia)) as Hres.
    inversion Hres as [Hle HE|d' w' Hlt HR' Hn' Hcap HO' Htr HE|w' Hlt Hmax HO' Htr HE|w' i Hbad HO' Htr HE].
    - exists d, w. csplit; auto.
    - exists d', w'. csplit; auto.
    - exfalso. destruct Hroom as [?|Hg]; [lia|]. unfold growth_fits in Hg. lia.
    - exfalso. now apply Hodd. }
  destruct HD as (d1 & w1 & HE1 & HR1 & HO1 & Hc1).
  destruct (push_as_fit P G HG t d1 vt xs vs w1 l HR1 HO1) as (d' & HE & HR' & Hcc); [lia|].
  exists (VecCopy d1 vt), w1, (VecCopy d' vt). unfold vc_reserve, on_data. cbn [vc_data vc_vtable].
  rewrite HE1. csplit; auto. now shw.
Qed.

(** The same for a buffer made [with_capacity(n)]. *)
Lemma c84_with_capacity_fact :
  forall (V : Type) (P : profile) (G : tenv) (build : tyid -> V), wf_tenv G ->
  forall t n vs w,
  wf_world w -> t_size (G t) <> 0 -> n * t_size (G t) <= max_alloc (t_align (G t)) -> lenN vs <= n ->
  exists b w1 b',
    vc_with_capacity G t n (build t) w = (Ret b, w1) /\
    push_each (vc_push_as P G t) vs b w1 = (Ret true, b', w1) /\
    shows G b' t vs /\ vc_capacity b' = vc_capacity b.
Proof.
  intros V P G build HG t n vs w Hw Hz Hn Hvs.
  destruct (with_capacity_rep G HG t n (build t) w Hw Hz Hn) as (d & w1 & HE & HR & HO & Hc).
  destruct (push_as_fit P G HG t d (build t) [] vs w1 _ HR HO) as (d' & HE' & HR' & Hcc).
  { change (lenN (@nil payload)) with 0. lia. }
  exists (VecCopy d (build t)), w1, (VecCopy d' (build t)). csplit; auto. now shw.
Qed.
