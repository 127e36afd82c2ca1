(** * ViewFacts: proofs about programs that cut slices into parts (C80). *)

From Verif Require Export Views CopyFacts4.
From Verif Require Import ReachProofs DynRunProofs DynReach DynCallProofs DynLemmas.

Scheme vprog_mut := Induction for vprog Sort Prop
  with vbody_mut := Induction for vbody Sort Prop.
Combined Scheme view_ind from vprog_mut, vbody_mut.

Definition ended (ok : bool) (o : outcome unit) : Prop := if ok then o = Ret tt else is_panic o.
Definition same_lens (xss yss : list (list payload)) : Prop := Forall2 (fun x y => lenN y = lenN x) xss yss.

Lemma same_lens_refl xss : same_lens xss xss.
Proof. unfold same_lens. induction xss; now constructor. Qed.
Lemma same_lens_trans xss yss zss : same_lens xss yss -> same_lens yss zss -> same_lens xss zss.
Proof.
  unfold same_lens. intros H. revert zss. induction H as [|x y xss yss H1 H IH]; intros zss H'; inversion H'; subst; constructor; [congruence|].
  now apply IH.
Qed.
Lemma same_lens_set xss j xs ys :
  nth_error xss j = Some xs -> lenN ys = lenN xs -> same_lens xss (list_set xss j ys).
Proof.
  unfold same_lens. revert j. induction xss as [|x xss IH]; intros [|j] H Hl; cbn [nth_error list_set] in *; try discriminate.
  - injection H as ->. constructor; [exact Hl|apply same_lens_refl].
  - constructor; [reflexivity|]. now apply IH.
Qed.
Lemma same_lens_concat xss yss : same_lens xss yss -> lenN (List.concat yss) = lenN (List.concat xss).
Proof. induction 1 as [|x y xss yss H1 H IH]; [reflexivity|]. cbn [List.concat]. rewrite !lenN_app. lia. Qed.
Lemma same_lens_bound xss yss m :
  same_lens xss yss -> (forall xs, In xs xss -> lenN xs <= m) -> forall ys, In ys yss -> lenN ys <= m.
Proof.
  induction 1 as [|x y xss yss H1 H IH]; intros HB ys Hi; [contradiction|]. destruct Hi as [<-|Hi].
  - rewrite H1. apply HB. now left.
  - apply IH; [|exact Hi]. intros xs Hx. apply HB. now right.
Qed.

Lemma map_list_set {A B} (f : A -> B) l j x : map f (list_set l j x) = list_set (map f l) j (f x).
Proof. revert j. induction l as [|y l IH]; intros [|j]; cbn [map list_set]; try reflexivity. now rewrite IH. Qed.

Lemma concat_encs G t xss : List.concat (map (encs G t) xss) = encs G t (List.concat xss).
Proof. induction xss as [|xs xss IH]; [reflexivity|]. cbn [map List.concat]. now rewrite IH, encs_app. Qed.

Lemma skipn_add {A} n m (l : list A) : skipn (n + m) l = skipn n (skipn m l).
Proof.
  revert l. induction m as [|m IH]; intros l; [now rewrite Nat.add_0_r|].
  rewrite Nat.add_succ_r. destruct l as [|x l]; cbn [skipn]; [now rewrite skipn_nil|]. apply IH.
Qed.

Lemma groups_of_chunks fuel k xs : groups_of fuel k xs = chunks_fuel fuel k xs.
Proof. revert xs. induction fuel as [|fuel IH]; intros xs; [reflexivity|]. cbn [groups_of chunks_fuel]. now rewrite IH. Qed.

Section ViewProofs.
Context {V : Type} (P : profile) (G : tenv) (HG : wf_tenv G).

Lemma sl_vals_same t (s : slicecopy V) xs : SRep G t s xs -> sl_vals G t s xs = s.
Proof. intros H. unfold sl_vals. rewrite <- (srep_data _ _ _ _ H). now destruct s. Qed.

Lemma run_vop_rep t (s : slicecopy V) xs o :
  SRep G t s xs -> vop_fits P (t_size (G t)) o ->
  match list_vop o t xs with
  | Some (a, ys) => run_vop P G o s = (Ret a, sl_vals G t s ys) /\ lenN ys = lenN xs
  | None => exists p, run_vop P G o s = (Panic p, s)
  end.
Proof.
  intros HS Hf. pose proof (srep_sized _ _ _ _ HS) as Hz.
  pose proof (sl_vals_same t s xs HS) as Hs. pose proof (srep_max _ _ _ _ HS) as Hm.
  fold (lenN xs). destruct o; cbn [list_vop run_vop vop_fits] in *; fold (lenN xs).
  - rewrite (sl_len_rep P G HG t s xs HS). cbn [obind]. now rewrite Hs.
  - rewrite Hs. split; [|reflexivity]. unfold sl_is_empty. rewrite (srep_data _ _ _ _ HS), encs_length.
    do 3 f_equal. destruct (N.eqb_spec (lenN xs) 0) as [->|E]; [reflexivity|]. apply N.eqb_neq. nia.
  - rewrite (slm_as_slice_rep P G HG t s xs _ HS). cbn [obind]. now rewrite Hs.
  - rewrite (sl_iter_rep G HG t s xs HS). cbn [obind]. rewrite downcast_all_rep by exact Hz. cbn [obind]. now rewrite Hs.
  - destruct (nthN xs i) as [x|] eqn:E.
    + rewrite (sl_get_rep P G HG t s xs i x HS E). cbn [obind]. rewrite elem_downcast by exact Hz. cbn [obind]. now rewrite Hs.
    + assert (E' : lenN xs <= i) by (unfold nthN in E; apply nth_error_None in E; unfold lenN; lia). destruct (sl_get_out P G HG t s xs i HS E' (or_intror Hf)) as (p & -> & _). now exists p.
  - rewrite (sl_get_as_rep P G HG t s xs _ i HS). destruct (nthN xs i) as [x|]; cbn [obind]; [now rewrite Hs|now eexists].
  - rewrite (slm_set_as_rep P G HG t s xs _ i v HS). destruct (i <? lenN xs) eqn:E; [|now eexists].
    destruct (t0 =? t); cbn [obind]; [split; [reflexivity|apply lenN_list_set]|now rewrite Hs].
  - destruct (i <? lenN xs) eqn:E.
    + apply N.ltb_lt in E. destruct (lenN_nth xs i E) as [x Hx].
      unfold user_ref. rewrite (slm_get_mut_copy_rep P G HG t s xs i x t0 v tt HS Hx).
      destruct (t0 =? t); cbn [obind]; [split; [reflexivity|apply lenN_list_set]|now rewrite Hs].
    + apply N.ltb_ge in E. destruct (sl_get_out P G HG t s xs i HS E (or_intror Hf)) as (p & _ & Hp).
      unfold slm_get_mut_copy. rewrite Hp. now exists p.
  - unfold user_ref. rewrite (slm_iter_copy_rep G HG t s xs t0 v tt HS). cbn [obind]. split; [reflexivity|].
    destruct (t0 =? t); [|reflexivity]. unfold lenN. now rewrite repeat_length.
  - rewrite (slm_copy_from_slice_rep P G HG t s xs t0 vs HS). destruct (t0 =? t); cbn [obind]; [|now rewrite Hs].
    destruct (Nat.eqb_spec (List.length vs) (List.length xs)) as [E|E].
    + assert (HL : lenN vs = lenN xs) by (unfold lenN; now rewrite E). rewrite HL, N.eqb_refl. now cbn [obind].
    + replace (lenN xs =? lenN vs) with false; [now eexists|]. symmetry. apply N.eqb_neq. unfold lenN. lia.
  - rewrite (slm_update_rep P G HG t s xs t0 f HS). destruct (t0 =? t); cbn [obind]; [|now rewrite Hs].
    split; [reflexivity|]. unfold lenN. now rewrite mapi_length.
  - destruct (k <=? lenN xs) eqn:E.
    + apply N.leb_le in E. rewrite (slm_rotate_left_rep P G HG t s xs k HS E). cbn [obind]. split; [reflexivity|apply rotl_len].
    + apply N.leb_gt in E. destruct (slm_rotate_out P G HG t s xs k HS E Hf) as (p & -> & _). now exists p.
  - destruct (k <=? lenN xs) eqn:E.
    + apply N.leb_le in E. rewrite (slm_rotate_right_rep P G HG t s xs k HS E). cbn [obind]. split; [reflexivity|apply rotr_len].
    + apply N.leb_gt in E. destruct (slm_rotate_out P G HG t s xs k HS E Hf) as (p & _ & ->). now exists p.
  - destruct (N.eqb_spec i j) as [->|Hne]; cbn [orb].
    + unfold slm_swap. rewrite N.eqb_refl. cbn [obind]. unfold swapN.
      assert (HX : match nthN xs j with Some x => list_set (list_set xs (N.to_nat j) x) (N.to_nat j) x | None => xs end = xs).
      { destruct (nthN xs j) as [x|] eqn:E; [|reflexivity]. unfold nthN in E. rewrite (list_set_same xs _ x E). exact (list_set_same xs _ x E). }
      replace (match nthN xs j with Some x => match nthN xs j with Some y => list_set (list_set xs (N.to_nat j) y) (N.to_nat j) x | None => xs end | None => xs end) with xs
        by (destruct (nthN xs j); congruence). now rewrite Hs.
    + destruct ((i <? lenN xs) && (j <? lenN xs)) eqn:E.
      * apply andb_prop in E. destruct E as [Ei Ej]. apply N.ltb_lt in Ei, Ej.
        rewrite (slm_swap_rep P G HG t s xs i j HS Ei Ej). cbn [obind]. split; [reflexivity|].
        apply (swap_meaning_fact payload xs i j 0 Ei Ej).
      * destruct (slm_swap_out P G HG t s xs i j HS Hne) as (p & ->); try apply Hf; [|now exists p].
        apply andb_false_iff in E. destruct E as [E|E]; apply N.ltb_ge in E; auto.
Qed.

Lemma cut_slice_rep t (s : slicecopy V) xs c :
  SRep G t s xs -> cut_fits P (t_size (G t)) c ->
  match list_cut c xs with
  | Some (before, parts, after) =>
      cut_slice P c s = Ret (lenN before * t_size (G t), map (sl_vals G t s) parts) /\
      xs = before ++ List.concat parts ++ after
  | None => exists p, cut_slice P c s = Panic p
  end.
Proof.
  intros HS Hf.
  assert (HSub : forall a b, a <= b -> b <= lenN xs ->
            lenN (firstn (N.to_nat a) xs) = a /\
            xs = firstn (N.to_nat a) xs ++ List.concat [firstn (N.to_nat (b - a)) (skipn (N.to_nat a) xs)] ++ skipn (N.to_nat b) xs).
  { intros a b Hab Hb. split.
    - unfold lenN in *. rewrite firstn_length. lia.
    - cbn [List.concat]. rewrite app_nil_r. replace (N.to_nat b) with (N.to_nat (b - a) + N.to_nat a)%nat by lia.
      rewrite skipn_add, !firstn_skipn. reflexivity. }
  destruct c as [a b|b|a| |k|k]; cbn [list_cut cut_slice cut_fits] in *; fold (lenN xs).
  - destruct ((a <=? b) && (b <=? lenN xs)) eqn:E.
    + apply andb_prop in E. destruct E as [E1 E2]. apply N.leb_le in E1, E2.
      rewrite (sl_subslice_rep P G HG t s xs a b HS E1 E2). cbn [obind fst snd map].
      destruct (HSub a b E1 E2) as [-> HX]. split; [reflexivity|exact HX].
    + destruct (sl_subslice_out P G HG t s xs a b HS) as (p & ->); try apply Hf; [|now exists p].
      apply andb_false_iff in E. destruct E as [E|E]; apply N.leb_gt in E; auto.
  - replace (0 <=? b) with true by (symmetry; apply N.leb_le; lia). cbn [andb].
    destruct (b <=? lenN xs) eqn:E.
    + apply N.leb_le in E. rewrite (sl_subslice_to P G HG t s xs b HS E). cbn [obind fst snd map].
      destruct (HSub 0 b ltac:(lia) E) as [_ HX]. split; [|exact HX].
      now rewrite N.sub_0_r.
    + apply N.leb_gt in E. destruct (sl_subslice_to_out P G HG t s xs b HS E Hf) as (p & ->). now exists p.
  - rewrite N.leb_refl, andb_true_r. destruct (a <=? lenN xs) eqn:E.
    + apply N.leb_le in E. rewrite (sl_subslice_from P G HG t s xs a HS E). cbn [obind fst snd map].
      destruct (HSub a (lenN xs) E (N.le_refl _)) as [-> HX]. split; [|exact HX]. do 4 f_equal.
      rewrite <- (firstnN_skipnN_all xs a). reflexivity.
    + apply N.leb_gt in E. destruct (sl_subslice_from_out P G HG t s xs a HS E Hf) as (p & ->). now exists p.
  - rewrite (sl_subslice_full P G t s xs HS). cbn [obind fst snd map List.concat app]. now rewrite !app_nil_r.
  - destruct (k <=? lenN xs) eqn:E.
    + apply N.leb_le in E. rewrite (sl_split_at_rep P G HG t s xs k HS E). cbn [obind fst snd map List.concat app].
      rewrite !app_nil_r. split; [reflexivity|]. symmetry. apply firstn_skipn.
    + apply N.leb_gt in E. destruct (sl_split_at_out P G HG t s xs k HS E Hf) as (p & ->). now exists p.
  - destruct (N.eqb_spec k 0) as [->|Hk].
    + unfold sl_chunks_exact. rewrite umul_ok by lia. rewrite N.mul_0_r. cbn. now eexists.
    + rewrite groups_of_chunks. rewrite (sl_chunks_exact_rep P G HG t s xs k HS) by lia. cbn [obind]. split; [reflexivity|].
      cbn [app].
      destruct (chunks_fuel_concat (List.length xs) (N.to_nat k) xs) as [HC _]; [lia|lia|].
      assert (HP : List.concat (chunks_fuel (List.length xs) (N.to_nat k) xs) =
                   firstn (List.length (List.concat (chunks_fuel (List.length xs) (N.to_nat k) xs))) xs).
      { rewrite HC, firstn_length. symmetry. rewrite Nat.min_l by lia. reflexivity. }
      rewrite HP at 1. symmetry. apply firstn_skipn.
Qed.

Lemma write_parts t (s : slicecopy V) before parts parts' after :
  SRep G t s (before ++ List.concat parts ++ after) -> same_lens parts parts' ->
  sl_write (lenN before * t_size (G t)) (List.concat (map sl_data (map (sl_vals G t s) parts'))) s =
  sl_vals G t s (before ++ List.concat parts' ++ after).
Proof.
  intros HS HL. unfold sl_write, sl_vals. rewrite (srep_data _ _ _ _ HS), map_map. cbn [sl_data].
  rewrite concat_encs. pose proof (same_lens_concat _ _ HL) as HC.
  rewrite splice_encs by (rewrite !lenN_app; lia). do 2 f_equal. unfold firstnN, skipnN, lenN in *.
  rewrite Nat2N.id, firstn_app, firstn_all, Nat.sub_diag. cbn [firstn]. rewrite app_nil_r.
  do 2 f_equal. rewrite skipn_app. rewrite skipn_all2 by lia. cbn [app].
  rewrite skipn_app. rewrite skipn_all2 by lia. cbn [app].
  replace (_ - _ - _)%nat with O by lia. reflexivity.
Qed.

Lemma run_view_cut c b (s : slicecopy V) :
  run_view P G (WCut c b) s =
  match cut_slice P c s with
  | Ret (off, parts) =>
      let '(os, o, parts') := run_body P G b parts in
      (os, o, sl_write off (List.concat (map sl_data parts')) s)
  | o => ([], retype o, s)
  end.
Proof. reflexivity. Qed.
Lemma run_body_do j p b (parts : list (slicecopy V)) :
  run_body P G (BDo j p b) parts =
  match nth_error parts j with
  | Some s =>
      let '(os, o, s') := run_view P G p s in
      match o with
      | Ret _ => let '(os', o', parts'') := run_body P G b (list_set parts j s') in (os ++ os', o', parts'')
      | _ => (os, o, list_set parts j s')
      end
  | None => run_body P G b parts
  end.
Proof. reflexivity. Qed.

Lemma run_view_rep t :
  (forall p (s : slicecopy V) xs, SRep G t s xs -> view_fits P (t_size (G t)) p ->
     forall os ok ys, list_view p t xs = (os, ok, ys) ->
     exists o, run_view P G p s = (os, o, sl_vals G t s ys) /\ ended ok o /\ lenN ys = lenN xs) /\
  (forall b (s : slicecopy V) X xss, SRep G t s X -> (forall xs, In xs xss -> lenN xs <= lenN X) ->
     body_fits P (t_size (G t)) b ->
     forall os ok yss, list_body b t xss = (os, ok, yss) ->
     exists o, run_body P G b (map (sl_vals G t s) xss) = (os, o, map (sl_vals G t s) yss) /\ ended ok o /\
               same_lens xss yss).
Proof.
  apply view_ind.
  - intros o s xs HS Hf os ok ys E. cbn [list_view run_view view_fits] in *.
    pose proof (run_vop_rep t s xs o HS Hf) as HO. destruct (list_vop o t xs) as [[a zs]|].
    + injection E as <- <- <-. destruct HO as [-> HL]. now exists (Ret tt).
    + injection E as <- <- <-. destruct HO as [p ->]. exists (Panic p). rewrite (sl_vals_same t s xs HS). now cbn.
  - intros c b IH s xs HS Hf os ok ys E. rewrite run_view_cut. cbn [list_view view_fits] in *.
    fold list_body in E. fold body_fits in Hf. destruct Hf as [Hc Hb].
    pose proof (cut_slice_rep t s xs c HS Hc) as HC. destruct (list_cut c xs) as [[[before parts] after]|].
    + destruct HC as [-> HX]. cbv beta iota. destruct (list_body b t parts) as [[os' ok'] parts'] eqn:EB. injection E as <- <- <-.
      assert (HB : forall z, In z parts -> lenN z <= lenN xs).
      { intros z Hz. rewrite HX, !lenN_app. apply in_split in Hz. destruct Hz as (l1 & l2 & ->).
        rewrite concat_app. cbn [List.concat]. rewrite !lenN_app. lia. }
      destruct (IH s xs parts HS HB Hb _ _ _ EB) as (o & -> & HE & HL).
      exists o. csplit; [|exact HE|].
      * f_equal. subst xs. now apply (write_parts t s before parts).
      * rewrite HX, !lenN_app, (same_lens_concat _ _ HL). reflexivity.
    + injection E as <- <- <-. destruct HC as [p ->]. exists (Panic p). rewrite (sl_vals_same t s xs HS). now cbn.
  - intros s X xss HS HB _ os ok yss E. cbn [list_body run_body] in *. injection E as <- <- <-.
    exists (Ret tt). csplit; try reflexivity. apply same_lens_refl.
  - intros j p IHp b IHb s X xss HS HB Hf os ok yss E. rewrite run_body_do. cbn [list_body body_fits] in *.
    fold list_view list_body in E. fold view_fits body_fits in Hf. destruct Hf as [Hp Hb].
    rewrite nth_error_map. destruct (nth_error xss j) as [xs|] eqn:Ej; cbn [option_map].
    + pose proof (nth_error_In _ _ Ej) as Hi.
      pose proof (sl_vals_rep G t s X xs HS (HB xs Hi)) as HS'.
      destruct (list_view p t xs) as [[os1 ok1] ys] eqn:E1.
      destruct (IHp _ xs HS' Hp _ _ _ E1) as (o1 & -> & HE1 & HL1).
      change (sl_vals G t (sl_vals G t s xs) ys) with (sl_vals G t s ys). rewrite <- map_list_set.
      pose proof (same_lens_set xss j xs ys Ej HL1) as HLs.
      destruct ok1.
      * unfold ended in HE1. subst o1. destruct (list_body b t (list_set xss j ys)) as [[os2 ok2] zss] eqn:E2.
        injection E as <- <- <-.
        destruct (IHb s X (list_set xss j ys) HS (same_lens_bound _ _ _ HLs HB) Hb _ _ _ E2) as (o2 & -> & HE2 & HL2).
        exists o2. csplit; [reflexivity|exact HE2|]. now apply (same_lens_trans _ (list_set xss j ys)).
      * injection E as <- <- <-. unfold ended, is_panic in *. destruct o1; try contradiction.
        eexists. csplit; [reflexivity|exact I|exact HLs].
    + now apply (IHb s X).
Qed.

End ViewProofs.

Lemma c80_views_partial_fact :
  forall (V : Type) (P : profile) (G : tenv), wf_tenv G ->
  forall t xs (vt : V) p os ok ys,
  slice_ok G t xs -> view_fits P (t_size (G t)) p -> list_view p t xs = (os, ok, ys) ->
  exists o, run_view P G p (sl_from_slice G t xs vt) = (os, o, sl_from_slice G t ys vt) /\
            (if ok then o = Ret tt else is_panic o) /\ lenN ys = lenN xs.
Proof.
  intros V P G HG t xs vt p os ok ys Hok Hf E.
  exact (proj1 (run_view_rep P G HG t) p _ xs (slice_srep G t xs vt Hok) Hf os ok ys E).
Qed.

Lemma c80_buffer_views_partial_fact :
  forall (V : Type) (P : profile) (G : tenv) (build : tyid -> V), wf_tenv G ->
  forall b w t xs p os ok ys,
  live_buffer P G build b w -> shows G b t xs -> view_fits P (t_size (G t)) p ->
  list_view p t xs = (os, ok, ys) ->
  exists o b', vc_run_view P G p b = (os, o, b') /\ (if ok then o = Ret tt else is_panic o) /\
               shows G b' t ys /\ vc_capacity b' = vc_capacity b /\ vc_vtable b' = vc_vtable b.
Proof.
  intros V P G build HG b w t xs p os ok ys Hb Hs Hf E. live Hb Hs HR Hc l HO.
  unfold vc_run_view. destruct (vc_as_slice_rep P G HG t d vt xs HR) as (s & -> & HS & _ & _).
  destruct (proj1 (run_view_rep P G HG t) p s xs HS Hf os ok ys E) as (o & -> & HE & HL).
  cbn [vc_data vc_vtable sl_vals sl_data]. rewrite (splice_all_with_vals G t d xs ys HR HL).
  do 2 eexists. csplit; [reflexivity|exact HE| |reflexivity|reflexivity].
  shw. exact (with_vals_rep G t d xs ys HR HL).
Qed.

(** ** What the list programs mean *)

Lemma list_vop_len o ty xs a ys : list_vop o ty xs = Some (a, ys) -> lenN ys = lenN xs.
Proof.
  destruct o; cbn [list_vop]; intros E;
    repeat match type of E with
    | Some _ = Some _ => injection E as <- <-
    | None = Some _ => discriminate
    | (match nthN xs ?i with _ => _ end) = _ => destruct (nthN xs i)
    | (if ?b then _ else _) = _ => destruct b eqn:?
    end; try reflexivity;
    repeat match goal with |- context [if ?b then _ else _] => destruct b end;
    try reflexivity; try apply lenN_list_set; try apply lenN_mapi; try apply rotl_len; try apply rotr_len.
  - unfold lenN. now rewrite repeat_length.
  - apply lenN_eq. now apply Nat.eqb_eq.
  - apply lenN_eq, Permutation_length, swapN_perm.
Qed.

Lemma list_cut_parts c xs before parts after :
  list_cut c xs = Some (before, parts, after) -> xs = before ++ List.concat parts ++ after.
Proof.
  assert (HSub : forall a b, a <= b -> 
            xs = firstn (N.to_nat a) xs ++ List.concat [firstn (N.to_nat (b - a)) (skipn (N.to_nat a) xs)] ++ skipn (N.to_nat b) xs).
  { intros a b Hab. cbn [List.concat]. rewrite app_nil_r. replace (N.to_nat b) with (N.to_nat (b - a) + N.to_nat a)%nat by lia.
    rewrite skipn_add, !firstn_skipn. reflexivity. }
  destruct c as [a b|b|a| |k|k]; cbn [list_cut]; fold (lenN xs); intros E.
  - destruct (a <=? b) eqn:Ea; cbn [andb] in E; [|discriminate]. apply N.leb_le in Ea.
    destruct (b <=? lenN xs); [|discriminate]. injection E as <- <- <-. now apply HSub.
  - replace (0 <=? b) with true in E by (symmetry; apply N.leb_le; lia). cbn [andb] in E.
    destruct (b <=? lenN xs); [|discriminate]. injection E as <- <- <-. apply (HSub 0 b). lia.
  - rewrite N.leb_refl, andb_true_r in E. destruct (a <=? lenN xs) eqn:Ea; [|discriminate]. apply N.leb_le in Ea.
    injection E as <- <- <-. now apply HSub.
  - injection E as <- <- <-. cbn. now rewrite !app_nil_r.
  - destruct (k <=? lenN xs); [|discriminate]. injection E as <- <- <-. cbn. rewrite !app_nil_r. symmetry. apply firstn_skipn.
  - destruct (N.eqb_spec k 0) as [->|Hk]; [discriminate|]. injection E as <- <- <-. rewrite groups_of_chunks. cbn [app].
    destruct (chunks_fuel_concat (List.length xs) (N.to_nat k) xs) as [HC _]; [lia|lia|].
    assert (HP : List.concat (chunks_fuel (List.length xs) (N.to_nat k) xs) =
                 firstn (List.length (List.concat (chunks_fuel (List.length xs) (N.to_nat k) xs))) xs).
    { rewrite HC, firstn_length. symmetry. rewrite Nat.min_l by lia. reflexivity. }
    rewrite HP at 1. symmetry. apply firstn_skipn.
Qed.

Lemma list_view_len ty :
  (forall p xs os ok ys, list_view p ty xs = (os, ok, ys) -> lenN ys = lenN xs) /\
  (forall b xss os ok yss, list_body b ty xss = (os, ok, yss) -> same_lens xss yss).
Proof.
  apply view_ind.
  - intros o xs os ok ys E. cbn [list_view] in E. destruct (list_vop o ty xs) as [[a zs]|] eqn:EO.
    + injection E as <- <- <-. now apply (list_vop_len o ty xs a).
    + now injection E as <- <- <-.
  - intros c b IH xs os ok ys E. cbn [list_view] in E. fold list_body in E.
    destruct (list_cut c xs) as [[[before parts] after]|] eqn:EC; [|now injection E as <- <- <-].
    destruct (list_body b ty parts) as [[os' ok'] parts'] eqn:EB. injection E as <- <- <-.
    rewrite (list_cut_parts _ _ _ _ _ EC), !lenN_app, (same_lens_concat _ _ (IH _ _ _ _ EB)). reflexivity.
  - intros xss os ok yss E. injection E as <- <- <-. apply same_lens_refl.
  - intros j p IHp b IHb xss os ok yss E. cbn [list_body] in E. fold list_view list_body in E.
    destruct (nth_error xss j) as [xs|] eqn:Ej; [|now apply (IHb _ _ _ _ E)].
    destruct (list_view p ty xs) as [[os1 ok1] ys] eqn:E1.
    pose proof (same_lens_set xss j xs ys Ej (IHp _ _ _ _ E1)) as HLs. destruct ok1.
    + destruct (list_body b ty (list_set xss j ys)) as [[os2 ok2] zss] eqn:E2. injection E as <- <- <-.
      exact (same_lens_trans _ _ _ HLs (IHb _ _ _ _ E2)).
    + now injection E as <- <- <-.
Qed.

Lemma c80_outside_fact :
  forall c b ty xs os ok ys before parts after,
  list_view (WCut c b) ty xs = (os, ok, ys) -> list_cut c xs = Some (before, parts, after) ->
  xs = before ++ List.concat parts ++ after /\
  exists mid, ys = before ++ mid ++ after /\ lenN mid = lenN (List.concat parts).
Proof.
  intros c b ty xs os ok ys before parts after E EC. split; [now apply (list_cut_parts c)|].
  cbn [list_view] in E. fold list_body in E. rewrite EC in E.
  destruct (list_body b ty parts) as [[os' ok'] parts'] eqn:EB. injection E as <- <- <-.
  exists (List.concat parts'). split; [reflexivity|].
  exact (same_lens_concat _ _ (proj2 (list_view_len ty) _ _ _ _ _ EB)).
Qed.

Lemma list_vop_moves o ty xs a ys : list_vop o ty xs = Some (a, ys) -> vop_moves o -> Permutation xs ys.
Proof.
  destruct o; cbn [list_vop vop_moves]; intros E HM; try contradiction;
    repeat match type of E with
    | Some _ = Some _ => injection E as <- <-
    | None = Some _ => discriminate
    | (match nthN xs ?i with _ => _ end) = _ => destruct (nthN xs i)
    | (if ?b then _ else _) = _ => destruct b eqn:?
    end; try reflexivity; try apply rotl_perm.
  symmetry. apply swapN_perm.
Qed.

Lemma list_view_moves ty :
  (forall p, view_moves p -> forall xs os ok ys, list_view p ty xs = (os, ok, ys) -> Permutation xs ys) /\
  (forall b, body_moves b -> forall xss os ok yss, list_body b ty xss = (os, ok, yss) ->
     Permutation (List.concat xss) (List.concat yss)).
Proof.
  apply view_ind.
  - intros o HM xs os ok ys E. cbn [list_view view_moves] in *. destruct (list_vop o ty xs) as [[a zs]|] eqn:EO.
    + injection E as <- <- <-. now apply (list_vop_moves o ty xs a).
    + now injection E as <- <- <-.
  - intros c b IH HM xs os ok ys E. cbn [list_view view_moves] in *. fold list_body in E. fold body_moves in HM.
    destruct (list_cut c xs) as [[[before parts] after]|] eqn:EC; [|now injection E as <- <- <-].
    destruct (list_body b ty parts) as [[os' ok'] parts'] eqn:EB. injection E as <- <- <-.
    rewrite (list_cut_parts _ _ _ _ _ EC). apply Permutation_app_head, Permutation_app_tail. now apply (IH HM _ _ _ _ EB).
  - intros _ xss os ok yss E. injection E as <- <- <-. reflexivity.
  - intros j p IHp b IHb HM xss os ok yss E. cbn [list_body body_moves] in *. fold list_view list_body in E.
    fold view_moves body_moves in HM. destruct HM as [HMp HMb].
    destruct (nth_error xss j) as [xs|] eqn:Ej; [|now apply (IHb HMb _ _ _ _ E)].
    destruct (list_view p ty xs) as [[os1 ok1] ys] eqn:E1.
    assert (HP : Permutation (List.concat xss) (List.concat (list_set xss j ys))).
    { pose proof (IHp HMp _ _ _ _ E1) as HP. clear -HP Ej. revert j Ej. induction xss as [|z xss IH]; intros [|j] Ej; cbn [nth_error list_set List.concat] in *; try discriminate.
      - injection Ej as ->. now apply Permutation_app_tail.
      - apply Permutation_app_head. now apply IH. }
    destruct ok1.
    + destruct (list_body b ty (list_set xss j ys)) as [[os2 ok2] zss] eqn:E2. injection E as <- <- <-.
      exact (Permutation_trans HP (IHb HMb _ _ _ _ E2)).
    + now injection E as <- <- <-.
Qed.

Lemma c80_owned_views_partial_fact :
  forall (V : Type) (T : FullTable V) (P : profile) (G : tenv), types_ok G ->
  forall (b : vecdyn V) w t xs p os ok ys,
  live_vec P G b w -> contents G b t xs -> view_fits P (t_size (G t)) p -> view_moves p ->
  list_view p t xs = (os, ok, ys) ->
  exists o b', vc_run_view P G p b = (os, o, b') /\ (if ok then o = Ret tt else is_panic o) /\
               contents G b' t ys /\ Permutation xs ys /\ vd_vtable b' = vd_vtable b.
Proof.
  intros V T P G [HG HC HQ] b w t xs p os ok ys Hb Hc Hf HM E.
  destruct (live_vec_rep P G HG HC HQ b w t xs Hb Hc) as (d & l & -> & HR & HO).
  unfold vc_run_view. destruct (vc_as_slice_rep P G HG t d (build_vtable (V := V) t) xs HR) as (s & -> & HS & _ & _).
  destruct (proj1 (run_view_rep P G HG t) p s xs HS Hf os ok ys E) as (o & -> & HE & HL).
  cbn [vc_data vc_vtable sl_vals sl_data]. rewrite (splice_all_with_vals G t d xs ys HR HL).
  do 2 eexists. csplit; [reflexivity|exact HE| | |reflexivity].
  - apply (rep_contents G HG). exact (with_vals_rep G t d xs ys HR HL).
  - exact (proj1 (list_view_moves t) p HM xs os ok ys E).
Qed.

(** Chunks are the groups of C22. *)
Lemma c80_chunks_fact :
  forall k xs, 0 < k ->
  exists gs after, list_cut (CChunks k) xs = Some ([], gs, after) /\ groups (N.to_nat k) xs gs.
Proof.
  intros k xs Hk. cbn [list_cut]. replace (k =? 0) with false by (symmetry; apply N.eqb_neq; lia).
  do 2 eexists. split; [reflexivity|]. rewrite groups_of_chunks. apply chunks_groups; lia.
Qed.

(** No group is complete. *)
Lemma list_cut_short k xs : lenN xs < k -> list_cut (CChunks k) xs = Some ([], [], xs).
Proof.
  intros Hk. cbn [list_cut]. replace (k =? 0) with false by (symmetry; apply N.eqb_neq; lia).
  assert (E : groups_of (List.length xs) (N.to_nat k) xs = []).
  { destruct (List.length xs) eqn:EL; cbn [groups_of]; [reflexivity|].
    replace (List.length xs <? N.to_nat k)%nat with true; [reflexivity|].
    symmetry. apply Nat.ltb_lt. unfold lenN in Hk. lia. }
  now rewrite E.
Qed.
