(** * DynFacts3: proofs of the property theorems about [VecDyn] and owned values, continued. *)

From Verif Require Export DynFacts2.
From Verif Require Import CopyFacts2 SliceFacts.
From Verif Require Import DynReach.

(** ** C38: clear and resize *)

Lemma c38_clear_fact :
  forall (V : Type) (T : FullTable V) (P : profile) (G : tenv), types_ok G ->
  forall (b : vecdyn V) w t xs,
  live_vec P G b w -> contents G b t xs ->
  exists b' w', vd_clear P G b w = (Ret tt, b', w') /\ contents G b' t [] /\
                vd_vtable b' = vd_vtable b /\ vc_capacity b' = vc_capacity b /\
                events w (drops G t xs) w'.
Proof.
  intros V T P G [HG HC HQ] b w t xs Hb Hc.
  destruct (live_vec_rep P G HG HC HQ b w t xs Hb Hc) as (d & l & -> & HR & HO).
  pose proof (rep_sized _ _ _ _ HR) as Hz.
  unfold vd_clear. cbn [vc_data vc_vtable].
  rewrite (byte_chunks_mut_rep P G HG t d xs HR), law_drop.
  rewrite (drop_chunks_q G HQ t xs w) by now apply Forall_sized.
  unfold on_data. cbn [vc_data vc_vtable].
  destruct (vv_clear_rep P G HG t d xs (set_tr (w_trace w ++ drops G t xs) w) l HR)
    as (d' & -> & HR' & Hcap & _ & HO').
  { now apply Owns_set_tr. }
  do 2 eexists. csplit; [reflexivity|now apply rep_contents|reflexivity|exact Hcap|].
  unfold events. now rewrite set_tr_trace.
Qed.

Lemma c38_resize_grow_partial_fact :
  forall (V : Type) (T : FullTable V) (P : profile) (G : tenv), types_ok G ->
  forall (b : vecdyn V) w t xs n x cs tr,
  live_vec P G b w -> contents G b t xs -> lenN xs <= n ->
  room G t (vc_capacity b) n -> ~ odd_growth G t (vc_capacity b) n ->
  clone_seq G t (repeat x (N.to_nat (n - lenN xs))) (w_trace w) = (cs, true, tr) ->
  exists b' w', vd_resize P G t n x b w = (Ret true, b', w') /\ contents G b' t (xs ++ cs) /\
                vd_vtable b' = vd_vtable b /\ w_trace w' = tr ++ drops G t [x].
Proof.
  intros V T P G [HG HC HQ] b w t xs n x cs tr Hb Hc Hn Hroom Hodd Hs.
  destruct (live_vec_rep P G HG HC HQ b w t xs Hb Hc) as (d & l & -> & HR & HO).
  unfold vc_capacity in *. cbn [vc_data] in *.
  unfold vd_resize. rewrite (vc_check_rep G _ _ _ _ _ HR), N.eqb_refl.
  unfold vd_len, vc_len. cbn [vc_data]. rewrite (rep_len _ _ _ _ HR).
  rewrite (proj2 (N.leb_le _ _) Hn).
  assert (Hk : lenN xs + (n - lenN xs) = n) by lia. rewrite <- Hk in Hroom, Hodd.
  pose proof (room_no_wrap G t d xs (n - lenN xs) HG HR Hroom) as Hnw.
  pose proof (chunks_le_size G HG t (n - lenN xs)) as Hcs.
  unfold vc_reserve, on_data. cbn [vc_data vc_vtable].
  assert (Hgo : forall d1 w1, Rep G t d1 xs -> Owns w1 (vv_own d1 ++ l) -> w_trace w1 = w_trace w ->
    n <= vv_cap d1 ->
    exists b' w', owning G t x
      (let '(o, self2, w2) := vd_push_clones P G (N.to_nat (n - lenN xs)) t x (VecCopy d1 (build_vtable (V := V) t)) w1 in
       (let! _ := o in Ret true, self2, w2)) = (Ret true, b', w') /\ contents G b' t (xs ++ cs) /\
       vd_vtable b' = build_vtable (V := V) t /\ w_trace w' = tr ++ drops G t [x]).
  { intros d1 w1 HR1 HO1 Ht1 Hcap. rewrite <- Ht1 in Hs.
    destruct (push_clones_room P G HG (build_vtable (V := V) t) (N.to_nat (n - lenN xs)) t d1 xs x w1 l cs true tr HR1 HO1 ltac:(lia) Hs)
      as (d2 & w2 & -> & HR2 & _ & HO2 & Ht2). cbn [obind owning].
    rewrite (drop_val_q G HQ). cbn [obind]. do 2 eexists.
    csplit; [reflexivity|now apply rep_contents|reflexivity|]. now rewrite set_tr_trace, Ht2. }
  pose proof (vv_reserve_rep P G HG t d xs (n - lenN xs) w l HR HO ltac:(lia)) as Hres.
  destruct Hres as [Hle|d' w' Hlt HR' Hn' Hcap HO' Htr _|w' Hlt Hmax HO' Htr|w' i Hbad HO' Htr].
  - apply Hgo; auto. lia.
  - apply Hgo; auto. lia.
  - exfalso. destruct Hroom as [?|Hg]; [lia|]. unfold growth_fits in Hg. lia.
  - exfalso. now apply Hodd.
Qed.

(** A clone panics: the clones made before it stay in the vector. *)
Lemma c38_resize_clone_panics_fact :
  forall (V : Type) (T : FullTable V) (P : profile) (G : tenv), types_ok G ->
  forall (b : vecdyn V) w t xs n x cs tr,
  live_vec P G b w -> contents G b t xs -> lenN xs <= n ->
  room G t (vc_capacity b) n -> ~ odd_growth G t (vc_capacity b) n ->
  clone_seq G t (repeat x (N.to_nat (n - lenN xs))) (w_trace w) = (cs, false, tr) ->
  exists b' w', vd_resize P G t n x b w = (Panic PUser, b', w') /\ contents G b' t (xs ++ cs) /\
                vd_vtable b' = vd_vtable b /\ w_trace w' = tr ++ drops G t [x].
Proof.
  intros V T P G [HG HC HQ] b w t xs n x cs tr Hb Hc Hn Hroom Hodd Hs.
  destruct (live_vec_rep P G HG HC HQ b w t xs Hb Hc) as (d & l & -> & HR & HO).
  unfold vc_capacity in *. cbn [vc_data] in *.
  unfold vd_resize. rewrite (vc_check_rep G _ _ _ _ _ HR), N.eqb_refl.
  unfold vd_len, vc_len. cbn [vc_data]. rewrite (rep_len _ _ _ _ HR).
  rewrite (proj2 (N.leb_le _ _) Hn).
  assert (Hk : lenN xs + (n - lenN xs) = n) by lia. rewrite <- Hk in Hroom, Hodd.
  pose proof (room_no_wrap G t d xs (n - lenN xs) HG HR Hroom) as Hnw.
  pose proof (chunks_le_size G HG t (n - lenN xs)) as Hcs.
  unfold vc_reserve, on_data. cbn [vc_data vc_vtable].
  assert (Hgo : forall d1 w1, Rep G t d1 xs -> Owns w1 (vv_own d1 ++ l) -> w_trace w1 = w_trace w ->
    n <= vv_cap d1 ->
    exists b' w', owning G t x
      (let '(o, self2, w2) := vd_push_clones P G (N.to_nat (n - lenN xs)) t x (VecCopy d1 (build_vtable (V := V) t)) w1 in
       (let! _ := o in Ret true, self2, w2)) = (Panic PUser, b', w') /\ contents G b' t (xs ++ cs) /\
       vd_vtable b' = build_vtable (V := V) t /\ w_trace w' = tr ++ drops G t [x]).
  { intros d1 w1 HR1 HO1 Ht1 Hcap. rewrite <- Ht1 in Hs.
    destruct (push_clones_room P G HG (build_vtable (V := V) t) (N.to_nat (n - lenN xs)) t d1 xs x w1 l cs false tr HR1 HO1 ltac:(lia) Hs)
      as (d2 & w2 & -> & HR2 & _ & HO2 & Ht2). cbn [obind owning].
    rewrite (drop_val_q G HQ). cbn [obind unwind]. do 2 eexists.
    csplit; [reflexivity|now apply rep_contents|reflexivity|]. now rewrite set_tr_trace, Ht2. }
  pose proof (vv_reserve_rep P G HG t d xs (n - lenN xs) w l HR HO ltac:(lia)) as Hres.
  destruct Hres as [Hle|d' w' Hlt HR' Hn' Hcap HO' Htr _|w' Hlt Hmax HO' Htr|w' i Hbad HO' Htr].
  - apply Hgo; auto. lia.
  - apply Hgo; auto. lia.
  - exfalso. destruct Hroom as [?|Hg]; [lia|]. unfold growth_fits in Hg. lia.
  - exfalso. now apply Hodd.
Qed.

Lemma c38_resize_shrink_fact :
  forall (V : Type) (T : FullTable V) (P : profile) (G : tenv), types_ok G ->
  forall (b : vecdyn V) w t xs n x,
  live_vec P G b w -> contents G b t xs -> n < lenN xs ->
  exists b' w', vd_resize P G t n x b w = (Ret true, b', w') /\ contents G b' t (firstnN n xs) /\
                vd_vtable b' = vd_vtable b /\
                events w (drops G t (skipnN n xs) ++ drops G t [x]) w'.
Proof.
  intros V T P G [HG HC HQ] b w t xs n x Hb Hc Hn.
  destruct (live_vec_rep P G HG HC HQ b w t xs Hb Hc) as (d & l & -> & HR & HO).
  pose proof (rep_sized _ _ _ _ HR) as Hz.
  unfold vd_resize. rewrite (vc_check_rep G _ _ _ _ _ HR), N.eqb_refl.
  unfold vd_len, vc_len. cbn [vc_data vc_vtable]. rewrite (rep_len _ _ _ _ HR).
  rewrite (proj2 (N.leb_gt _ _) Hn).
  rewrite (byte_chunks_mut_rep P G HG t d xs HR), law_drop.
  unfold skipnN. rewrite skipn_map.
  rewrite (drop_chunks_q G HQ t _ w) by now apply Forall_sized.
  unfold on_data. cbn [vc_data vc_vtable].
  destruct (vv_truncate_rep P G HG t d xs n (set_tr (w_trace w ++ drops G t (skipn (N.to_nat n) xs)) w) l HR)
    as (d' & -> & HR' & _ & _ & HO').
  { now apply Owns_set_tr. } { lia. }
  cbn [obind owning]. rewrite (drop_val_q G HQ). cbn [obind]. do 2 eexists.
  csplit; [reflexivity|now apply rep_contents|reflexivity|].
  unfold events. now rewrite !set_tr_trace, app_assoc.
Qed.

Lemma c38_resize_other_type_fact :
  forall (V : Type) (T : FullTable V) (P : profile) (G : tenv), types_ok G ->
  forall (b : vecdyn V) w t xs t' n x,
  live_vec P G b w -> contents G b t xs -> t' <> t ->
  exists w', vd_resize P G t' n x b w = (Ret false, b, w') /\ events w (drops G t' [x]) w' /\
             freed w [] w'.
Proof.
  intros V T P G [HG HC HQ] b w t xs t' n x Hb Hc Hne.
  destruct (live_vec_rep P G HG HC HQ b w t xs Hb Hc) as (d & l & -> & HR & HO).
  unfold vd_resize. rewrite (vc_check_rep G _ _ _ _ _ HR). apply N.eqb_neq in Hne. rewrite Hne.
  cbn [owning]. rewrite (drop_val_q G HQ). cbn [obind]. eexists.
  csplit; [reflexivity|apply set_tr_trace|]. unfold freed. reflexivity.
Qed.

Lemma c38_fill_fact :
  forall (V : Type) (T : FullTable V) (P : profile) (G : tenv), types_ok G ->
  forall (b : vecdyn V) w t xs x ys tr,
  live_vec P G b w -> contents G b t xs ->
  replace_seq G t (repeat x (List.length xs)) xs (w_trace w) = (ys, true, tr) ->
  exists b' w', vd_fill G t x b w = (Ret true, b', w') /\ contents G b' t ys /\
                vd_vtable b' = vd_vtable b /\ w_trace w' = tr ++ drops G t [x].
Proof.
  intros V T P G [HG HC HQ] b w t xs x ys tr Hb Hc Hs.
  destruct (live_vec_rep P G HG HC HQ b w t xs Hb Hc) as (d & l & -> & HR & HO).
  unfold vd_fill. rewrite (as_slice_as_rep G t d (build_vtable (V := V) t) xs t HR). unfold typed.
  rewrite N.eqb_refl, (fill_vals_seq G HQ t x xs w ys true tr Hs). cbn [obind owning].
  pose proof (replace_seq_len G t _ _ _ _ _ _ Hs) as Hl.
  rewrite (drop_val_q G HQ). cbn [obind vc_data vc_vtable]. do 2 eexists. csplit; [reflexivity| |reflexivity|].
  - apply rep_contents. rewrite (splice_all_with_vals G t d xs ys HR) by now apply lenN_eq.
    apply (with_vals_rep G t d xs ys HR). now apply lenN_eq.
  - now rewrite !set_tr_trace.
Qed.
