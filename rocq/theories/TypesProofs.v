(** * Lemmas about Base.v and Types.v. *)

From Verif Require Export Types.

Arguments usize_max : simpl never.
Arguments isize_max : simpl never.

(** Split conjunctions without unfolding definitions. *)
Ltac csplit := repeat match goal with |- _ /\ _ => split end.

(** ** Lists indexed by N *)

Lemma lenN_nil {A} : lenN (@nil A) = 0.
Proof. reflexivity. Qed.

Lemma lenN_cons {A} (x : A) l : lenN (x :: l) = lenN l + 1.
Proof. unfold lenN. cbn [List.length]. lia. Qed.

Lemma lenN_app {A} (l l' : list A) : lenN (l ++ l') = lenN l + lenN l'.
Proof. unfold lenN. rewrite app_length. lia. Qed.

Lemma lenN_map {A B} (f : A -> B) l : lenN (map f l) = lenN l.
Proof. unfold lenN. now rewrite map_length. Qed.

Lemma lenN_firstnN {A} n (l : list A) : lenN (firstnN n l) = N.min n (lenN l).
Proof. unfold lenN, firstnN. rewrite firstn_length. lia. Qed.

Lemma lenN_skipnN {A} n (l : list A) : lenN (skipnN n l) = lenN l - n.
Proof. unfold lenN, skipnN. rewrite skipn_length. lia. Qed.

Lemma lenN_repeat {A} (x : A) n : lenN (repeat x n) = N.of_nat n.
Proof. unfold lenN. now rewrite repeat_length. Qed.

Lemma lenN_zero {A} (l : list A) : lenN l = 0 -> l = [].
Proof. unfold lenN. destruct l; [reflexivity|cbn; lia]. Qed.

Lemma to_nat_lenN {A} (l : list A) : N.to_nat (lenN l) = List.length l.
Proof. unfold lenN. lia. Qed.

Lemma firstnN_skipnN {A} n (l : list A) : firstnN n l ++ skipnN n l = l.
Proof. apply firstn_skipn. Qed.

Lemma firstnN_all {A} n (l : list A) : lenN l <= n -> firstnN n l = l.
Proof. unfold lenN, firstnN. intros. apply firstn_all2. lia. Qed.

Lemma skipnN_all {A} n (l : list A) : lenN l <= n -> skipnN n l = [].
Proof. unfold lenN, skipnN. intros. apply skipn_all2. lia. Qed.

Lemma skipnN_0 {A} (l : list A) : skipnN 0 l = l.
Proof. reflexivity. Qed.

Lemma firstnN_0 {A} (l : list A) : firstnN 0 l = [].
Proof. reflexivity. Qed.

Lemma firstnN_app_exact {A} n (l l' : list A) : n = lenN l -> firstnN n (l ++ l') = l.
Proof.
  intros ->. unfold firstnN. rewrite to_nat_lenN, firstn_app, Nat.sub_diag, firstn_all. cbn.
  apply app_nil_r.
Qed.

Lemma skipnN_app_exact {A} n (l l' : list A) : n = lenN l -> skipnN n (l ++ l') = l'.
Proof.
  intros ->. unfold skipnN. rewrite to_nat_lenN, skipn_app, Nat.sub_diag, skipn_all. reflexivity.
Qed.

Lemma skipnN_skipnN {A} a b (l : list A) : skipnN a (skipnN b l) = skipnN (a + b) l.
Proof.
  unfold skipnN. rewrite N2Nat.inj_add.
  revert l. induction (N.to_nat b) as [|m IH]; intros l.
  - now rewrite Nat.add_0_r.
  - rewrite Nat.add_succ_r. destruct l; cbn [skipn]; [apply skipn_nil|apply IH].
Qed.

Lemma firstnN_firstnN {A} a b (l : list A) : firstnN a (firstnN b l) = firstnN (N.min a b) l.
Proof. unfold firstnN. rewrite firstn_firstn. f_equal. lia. Qed.

Lemma list_set_length {A} (l : list A) i x : List.length (list_set l i x) = List.length l.
Proof. revert i. induction l; intros [|i]; cbn; auto. Qed.

Lemma list_set_app_r {A} (l l' : list A) i x :
  list_set (l ++ l') (List.length l + i) x = l ++ list_set l' i x.
Proof. induction l; cbn; [reflexivity|]. now f_equal. Qed.

Lemma list_set_split {A} (l : list A) i x :
  (i < List.length l)%nat -> list_set l i x = firstn i l ++ x :: skipn (S i) l.
Proof.
  revert i. induction l; intros [|i] H; cbn in *; try lia; [reflexivity|].
  f_equal. apply IHl. lia.
Qed.

Lemma nth_error_list_set {A} (l : list A) i x j :
  nth_error (list_set l i x) j =
  if (i =? j)%nat then (match nth_error l i with Some _ => Some x | None => None end)
  else nth_error l j.
Proof.
  revert i j. induction l as [|y l IH]; intros [|i] [|j]; cbn; try reflexivity.
  - destruct (i =? j)%nat; reflexivity.
  - apply IH.
Qed.

Lemma mapi_from_length {A B} (f : nat -> A -> B) l k : List.length (mapi_from k f l) = List.length l.
Proof. revert k. induction l; intros; cbn; auto. Qed.

Lemma mapi_length {A B} (f : nat -> A -> B) l : List.length (mapi f l) = List.length l.
Proof. apply mapi_from_length. Qed.

Lemma mapi_from_const {A B} (c : B) (l : list A) k :
  mapi_from k (fun _ _ => c) l = repeat c (List.length l).
Proof. revert k. induction l; intros; cbn; [reflexivity|]. now f_equal. Qed.

Lemma nth_error_mapi_from {A B} (f : nat -> A -> B) l k i :
  nth_error (mapi_from k f l) i = option_map (f (k + i)%nat) (nth_error l i).
Proof.
  revert k i. induction l as [|x l IH]; intros k [|i]; cbn; try reflexivity.
  - now rewrite Nat.add_0_r.
  - rewrite IH. now rewrite Nat.add_succ_r.
Qed.

Lemma nth_error_mapi {A B} (f : nat -> A -> B) l i :
  nth_error (mapi f l) i = option_map (f i) (nth_error l i).
Proof. apply nth_error_mapi_from. Qed.

Lemma repeat_app_one {A} (x : A) n : repeat x n ++ [x] = x :: repeat x n.
Proof. induction n; cbn; [reflexivity|]. now f_equal. Qed.

(** ** Outcomes *)

Lemma obind_ret_inv {A B} (o : outcome A) (k : A -> outcome B) b :
  obind o k = Ret b -> exists a, o = Ret a /\ k a = Ret b.
Proof. destruct o; cbn; intros; try discriminate. eauto. Qed.

(** ** usize arithmetic *)

Lemma umul_ok P a b : a * b <= usize_max -> umul P a b = Ret (a * b).
Proof. intros H. unfold umul. apply N.leb_le in H. now rewrite H. Qed.

Lemma uadd_ok P a b : a + b <= usize_max -> uadd P a b = Ret (a + b).
Proof. intros H. unfold uadd. apply N.leb_le in H. now rewrite H. Qed.

Lemma umul_over P a b :
  usize_max < a * b ->
  umul P a b = if overflow_checks P then Panic POverflow else Ret (wrap (a * b)).
Proof. intros H. unfold umul. apply N.leb_gt in H. now rewrite H. Qed.

Lemma isize_lt_usize : isize_max <= usize_max.
Proof. unfold isize_max, usize_max. vm_compute. discriminate. Qed.

Lemma assert_true b : b = true -> assert_ b = Ret tt.
Proof. now intros ->. Qed.

Lemma debug_assert_true P b : b = true -> debug_assert P b = Ret tt.
Proof. intros ->. unfold debug_assert. now destruct (debug_assertions P). Qed.

(** ** Object representations *)

Lemma mbyte_eqb_eq a b : mbyte_eqb a b = true <-> a = b.
Proof.
  destruct a, b; cbn; split; intros H; try discriminate.
  - apply andb_prop in H as [H1 H2]. apply andb_prop in H1 as [H1 H3].
    apply N.eqb_eq in H1. apply Z.eqb_eq in H3. apply Nat.eqb_eq in H2. congruence.
  - injection H as -> -> ->. now rewrite N.eqb_refl, Z.eqb_refl, Nat.eqb_refl.
  - apply N.eqb_eq in H. congruence.
  - injection H as ->. apply N.eqb_refl.
Qed.

Lemma bytes_eqb_eq a b : bytes_eqb a b = true <-> a = b.
Proof.
  revert b. induction a as [|x a IH]; intros [|y b]; cbn; split; intros H; try easy.
  - apply andb_prop in H as [H1 H2]. apply mbyte_eqb_eq in H1. apply IH in H2. congruence.
  - injection H as -> ->. apply andb_true_intro. split; [now apply mbyte_eqb_eq|now apply IH].
Qed.

Lemma enc_length G t v : lenN (enc G t v) = t_size (G t).
Proof. unfold enc, lenN. rewrite map_length, seq_length. lia. Qed.

Lemma enc_nil G t v : t_size (G t) = 0 -> enc G t v = [].
Proof. unfold enc. now intros ->. Qed.

Lemma enc_cons G t v :
  t_size (G t) <> 0 -> exists bs, enc G t v = Frag t v 0 :: bs.
Proof.
  intros H. unfold enc. destruct (N.to_nat (t_size (G t))) eqn:E; [lia|]. cbn. eauto.
Qed.

Lemma dec_enc G t v : is_value G t v -> dec G t (enc G t v) = Some v.
Proof.
  intros Hv. destruct (N.eq_dec (t_size (G t)) 0) as [Hz|Hz].
  - rewrite enc_nil by exact Hz. cbn. rewrite Hz. cbn. now rewrite (Hv Hz).
  - destruct (enc_cons G t v Hz) as [bs E]. rewrite E. cbn [dec].
    rewrite <- E.
    replace (bytes_eqb (enc G t v) (enc G t v)) with true; [reflexivity|].
    symmetry. now apply bytes_eqb_eq.
Qed.

Lemma dec_sound G t bs v : dec G t bs = Some v -> bs = enc G t v /\ is_value G t v.
Proof.
  destruct bs as [|[t' v' k|b] bs]; cbn [dec].
  - destruct (t_size (G t) =? 0) eqn:E; [|discriminate]. apply N.eqb_eq in E.
    injection 1 as <-. split; [now rewrite enc_nil|]. now intros _.
  - destruct (bytes_eqb _ _) eqn:E; [|discriminate]. apply bytes_eqb_eq in E.
    injection 1 as <-. split; [exact E|].
    intros Hz. rewrite enc_nil in E by exact Hz. discriminate.
  - discriminate.
Qed.

Lemma read_val_enc G t v : is_value G t v -> read_val G t (enc G t v) = Ret v.
Proof. intros H. unfold read_val. now rewrite dec_enc. Qed.

(** The bytes of a value of one type are never a value of another (sized) type. *)
Lemma dec_other_type G t t' v :
  t <> t' -> t_size (G t') <> 0 -> dec G t (enc G t' v) = None.
Proof.
  intros Ht Hz. destruct (dec G t (enc G t' v)) eqn:E; [|reflexivity].
  apply dec_sound in E as [E _]. destruct (enc_cons G t' v Hz) as [bs E']. rewrite E' in E.
  destruct (N.eq_dec (t_size (G t)) 0) as [Hz'|Hz'].
  - rewrite enc_nil in E by exact Hz'. discriminate.
  - destruct (enc_cons G t p Hz') as [bs' E'']. rewrite E'' in E. congruence.
Qed.

Lemma encs_nil G t : encs G t [] = [].
Proof. reflexivity. Qed.

Lemma encs_cons G t x xs : encs G t (x :: xs) = enc G t x ++ encs G t xs.
Proof. reflexivity. Qed.

Lemma encs_app G t xs ys : encs G t (xs ++ ys) = encs G t xs ++ encs G t ys.
Proof. unfold encs. apply flat_map_app. Qed.

Lemma encs_one G t x : encs G t [x] = enc G t x.
Proof. unfold encs. cbn. apply app_nil_r. Qed.

Lemma encs_length G t xs : lenN (encs G t xs) = lenN xs * t_size (G t).
Proof.
  induction xs as [|x xs IH]; [reflexivity|].
  rewrite encs_cons, lenN_app, IH, enc_length, lenN_cons. lia.
Qed.

Lemma firstnN_encs G t n xs : firstnN (n * t_size (G t)) (encs G t xs) = encs G t (firstnN n xs).
Proof.
  destruct (N.le_gt_cases (lenN xs) n) as [H|H].
  - rewrite !firstnN_all; [reflexivity|exact H|]. rewrite encs_length. nia.
  - rewrite <- (firstnN_skipnN n xs) at 1. rewrite encs_app.
    apply firstnN_app_exact. rewrite encs_length, lenN_firstnN. f_equal. lia.
Qed.

Lemma skipnN_encs G t n xs : skipnN (n * t_size (G t)) (encs G t xs) = encs G t (skipnN n xs).
Proof.
  destruct (N.le_gt_cases (lenN xs) n) as [H|H].
  - rewrite !skipnN_all; [reflexivity|exact H|]. rewrite encs_length. nia.
  - rewrite <- (firstnN_skipnN n xs) at 1. rewrite encs_app.
    apply skipnN_app_exact. rewrite encs_length, lenN_firstnN. f_equal. lia.
Qed.

Lemma is_value_sized G t v : t_size (G t) <> 0 -> is_value G t v.
Proof. intros H H'. contradiction. Qed.

Lemma read_vals_encs G t xs rest :
  Forall (is_value G t) xs ->
  read_vals G t (List.length xs) (encs G t xs ++ rest) = Ret xs.
Proof.
  induction xs as [|x xs IH]; intros H; [reflexivity|].
  inversion_clear H as [|? ? Hx Hxs]. cbn [List.length read_vals].
  rewrite encs_cons, <- app_assoc.
  assert (HL : lenN (enc G t x ++ encs G t xs ++ rest) <? t_size (G t) = false).
  { apply N.ltb_ge. rewrite lenN_app, enc_length. lia. }
  rewrite HL, firstnN_app_exact, skipnN_app_exact by now rewrite enc_length.
  rewrite read_val_enc by exact Hx. cbn. now rewrite IH.
Qed.

Lemma read_vals_encs' G t xs :
  t_size (G t) <> 0 -> read_vals G t (N.to_nat (lenN xs)) (encs G t xs) = Ret xs.
Proof.
  intros H. rewrite to_nat_lenN. rewrite <- (app_nil_r (encs G t xs)).
  apply read_vals_encs. apply Forall_forall. intros. now apply is_value_sized.
Qed.

Lemma read_val_at G t xs i :
  t_size (G t) <> 0 -> i < lenN xs ->
  exists v, nth_error xs (N.to_nat i) = Some v /\
    firstnN (t_size (G t)) (skipnN (i * t_size (G t)) (encs G t xs)) = enc G t v.
Proof.
  intros Hz Hi. rewrite skipnN_encs.
  assert (Hn : (N.to_nat i < List.length xs)%nat) by (unfold lenN in Hi; lia).
  destruct (nth_error xs (N.to_nat i)) as [v|] eqn:E.
  2:{ apply nth_error_None in E. lia. }
  exists v. split; [reflexivity|].
  apply nth_error_split in E as (l1 & l2 & -> & E).
  unfold skipnN at 1. rewrite <- E, skipn_app, skipn_all, Nat.sub_diag. cbn [app skipn].
  rewrite encs_cons. apply firstnN_app_exact. now rewrite enc_length.
Qed.

Lemma encs_inj G t xs ys :
  t_size (G t) <> 0 -> encs G t xs = encs G t ys -> xs = ys.
Proof.
  intros Hz H.
  assert (HL : lenN xs = lenN ys).
  { apply (f_equal lenN) in H. rewrite !encs_length in H. nia. }
  pose proof (read_vals_encs' G t xs Hz) as Hx.
  rewrite H, HL, read_vals_encs' in Hx by exact Hz. congruence.
Qed.

(** ** Chunks *)

Lemma chunks_fuel_encs G t xs fuel :
  t_size (G t) <> 0 -> (List.length (encs G t xs) <= fuel)%nat ->
  chunks_fuel fuel (N.to_nat (t_size (G t))) (encs G t xs) = map (enc G t) xs.
Proof.
  intros Hz. revert fuel. induction xs as [|x xs IH]; intros fuel Hf.
  - cbn [encs flat_map map]. destruct fuel; [reflexivity|]. cbn [chunks_fuel List.length].
    destruct (0 <? N.to_nat (t_size (G t)))%nat eqn:E; [reflexivity|].
    apply Nat.ltb_ge in E. lia.
  - assert (HE : List.length (enc G t x) = N.to_nat (t_size (G t))).
    { pose proof (enc_length G t x) as HE. unfold lenN in HE. lia. }
    rewrite encs_cons in *. rewrite app_length in Hf.
    destruct fuel as [|fuel]; [lia|]. cbn [chunks_fuel map].
    destruct (List.length _ <? _)%nat eqn:E.
    + apply Nat.ltb_lt in E. rewrite app_length in E. lia.
    + rewrite firstn_app, skipn_app, <- HE, Nat.sub_diag, firstn_all, skipn_all.
      cbn [firstn skipn app]. rewrite app_nil_r. f_equal. rewrite HE. apply IH. lia.
Qed.

Lemma chunks_exact_encs G t xs :
  t_size (G t) <> 0 -> chunks_exact (t_size (G t)) (encs G t xs) = Ret (map (enc G t) xs).
Proof.
  intros Hz. unfold chunks_exact.
  destruct (t_size (G t) =? 0) eqn:E; [apply N.eqb_eq in E; contradiction|].
  f_equal. now apply chunks_fuel_encs.
Qed.

(** ** The allocator *)

Lemma block_eqb_eq a b : block_eqb a b = true <-> a = b.
Proof.
  destruct a as [i [s l]], b as [i' [s' l']]. cbn. rewrite !andb_true_iff, !N.eqb_eq.
  split; [intros [[-> ->] ->]; reflexivity|]. injection 1 as -> -> ->. auto.
Qed.

Lemma remove_block_some b l l' : remove_block b l = Some l' -> Permutation l (b :: l').
Proof.
  revert l'. induction l as [|x l IH]; intros l'; cbn; [discriminate|].
  destruct (block_eqb b x) eqn:E.
  - apply block_eqb_eq in E as ->. now injection 1 as ->.
  - destruct (remove_block b l) as [r|]; [|discriminate]. injection 1 as <-.
    rewrite (IH r eq_refl). apply perm_swap.
Qed.

Lemma remove_block_in b l : In b l -> exists l', remove_block b l = Some l'.
Proof.
  induction l as [|x l IH]; cbn; [easy|].
  destruct (block_eqb b x) eqn:E; [eauto|].
  intros [->|H].
  - assert (block_eqb b b = true) by now apply block_eqb_eq. congruence.
  - destruct (IH H) as [l' ->]. eauto.
Qed.

(** The blocks behind a pointer to [sz] bytes. *)
Definition owned (b : option N) (sz al : N) : list block :=
  match b with
  | Some i => if sz =? 0 then [] else [(i, (sz, al))]
  | None => []
  end.

(** A pointer to [sz] bytes is dangling only when [sz] is zero. *)
Definition ptr_ok (b : option N) (sz : N) : Prop := sz <> 0 -> b <> None.

Lemma alloc_spec sz al w b w' :
  alloc sz al w = (b, w') ->
  w_live w' = owned b sz al ++ w_live w /\ w_trace w' = w_trace w /\ ptr_ok b sz /\
  (forall i, b = Some i -> i = w_next w /\ w_next w' = w_next w + 1) /\
  (b = None -> w' = w).
Proof.
  unfold alloc. destruct (sz =? 0) eqn:E; injection 1 as <- <-.
  - apply N.eqb_eq in E. repeat split; try easy.
  - cbn. rewrite E. repeat split; try easy. all: intros; congruence.
Qed.

Lemma dealloc_spec b sz al w rest :
  ptr_ok b sz -> Permutation (w_live w) (owned b sz al ++ rest) ->
  exists w', dealloc b sz al w = (Ret tt, w') /\ Permutation (w_live w') rest /\
             w_trace w' = w_trace w /\ w_next w' = w_next w.
Proof.
  intros Hp Hl. unfold dealloc. destruct (sz =? 0) eqn:E.
  - apply N.eqb_eq in E. subst sz. exists w. repeat split.
    destruct b; cbn in Hl; exact Hl.
  - apply N.eqb_neq in E. destruct b as [i|]; [|now elim (Hp E)].
    cbn in Hl. apply N.eqb_neq in E. rewrite E in Hl. cbn in Hl.
    destruct (remove_block_in (i, (sz, al)) (w_live w)) as [l' Hr].
    { apply (Permutation_in (l := (i, (sz, al)) :: rest)); [now symmetry|now left]. }
    rewrite Hr. exists (World (w_next w) l' (w_trace w)). repeat split. cbn.
    apply remove_block_some in Hr. rewrite Hr in Hl. now apply Permutation_cons_inv in Hl.
Qed.

Lemma NoDup_app_tail {A} (l l' : list A) : NoDup (l ++ l') -> NoDup l'.
Proof. induction l as [|x l IH]; cbn; [easy|]. inversion_clear 1. auto. Qed.

(** [Owns w l]: the live blocks are exactly [l], with pairwise distinct identities. *)
Definition Owns (w : world) (l : list block) : Prop :=
  wf_world w /\ Permutation (w_live w) l.

Lemma Owns_perm w l l' : Permutation l l' -> Owns w l -> Owns w l'.
Proof. intros H [H1 H2]. split; [exact H1|]. now rewrite H2. Qed.

Lemma Owns_nodup w l : Owns w l -> NoDup (map fst l).
Proof. intros [[H _] HP]. eapply Permutation_NoDup; [|exact H]. now apply Permutation_map. Qed.

Lemma Owns_emit e w l : Owns w l -> Owns (emit e w) l.
Proof. intros [[H1 H2] HP]. split; [|exact HP]. now split. Qed.

Lemma Owns_w0 : Owns w0 [].
Proof. split; [|constructor]. split; [constructor|easy]. Qed.

Lemma alloc_owns sz al w l :
  Owns w l ->
  exists b w', alloc sz al w = (b, w') /\ Owns w' (owned b sz al ++ l) /\ ptr_ok b sz /\
               w_trace w' = w_trace w.
Proof.
  intros [[Hn Hx] HP]. unfold alloc. destruct (sz =? 0) eqn:E.
  - exists None, w. repeat split; try easy.
    now apply N.eqb_eq in E.
  - exists (Some (w_next w)). eexists. split; [reflexivity|]. split; [|split; [|reflexivity]].
    + cbn [owned]. rewrite E. split; [|cbn; now constructor]. split; cbn.
      * constructor; [|exact Hn]. intros Hin. apply in_map_iff in Hin as (b & Hb & Hin).
        apply Hx in Hin. lia.
      * intros b [<-|Hin]; cbn; [lia|]. apply Hx in Hin. lia.
    + intros _. discriminate.
Qed.

Lemma dealloc_owns b sz al w l :
  ptr_ok b sz -> Owns w (owned b sz al ++ l) ->
  exists w', dealloc b sz al w = (Ret tt, w') /\ Owns w' l /\ w_trace w' = w_trace w.
Proof.
  intros Hp [[Hn Hx] HP].
  destruct (dealloc_spec b sz al w l Hp HP) as (w' & Hd & Hl & Ht & Hnx).
  exists w'. repeat split; try assumption.
  - assert (Hn' : NoDup (map fst (owned b sz al ++ l))).
    { eapply Permutation_NoDup; [|exact Hn]. now apply Permutation_map. }
    rewrite map_app in Hn'. apply NoDup_app_tail in Hn'.
    eapply Permutation_NoDup; [|exact Hn']. apply Permutation_map. now symmetry.
  - intros b' Hin. rewrite Hnx. apply Hx.
    apply (Permutation_in (l := owned b sz al ++ l)); [now symmetry|].
    apply in_or_app. right. now apply (Permutation_in (l := w_live w')).
Qed.
