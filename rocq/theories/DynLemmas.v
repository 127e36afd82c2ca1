(** * DynLemmas: clones, drops and their accounting. *)

From Verif Require Export MachineProofs DynMachine.

(** ** Traces *)

Definition set_tr (tr : list event) (w : world) : world := World (w_next w) (w_live w) tr.

Lemma set_tr_trace tr w : w_trace (set_tr tr w) = tr.
Proof. reflexivity. Qed.
Lemma set_tr_set tr tr' w : set_tr tr (set_tr tr' w) = set_tr tr w.
Proof. reflexivity. Qed.
Lemma set_tr_same w : set_tr (w_trace w) w = w.
Proof. destruct w; reflexivity. Qed.
Lemma emit_set e w : emit e w = set_tr (w_trace w ++ [e]) w.
Proof. reflexivity. Qed.

Lemma Owns_set_tr tr w l : Owns (set_tr tr w) l <-> Owns w l.
Proof.
  unfold Owns. split; intros [[H1 H2] H3]; (split; [split|]); cbn in *; assumption.
Qed.

Lemma drops_app G t xs ys : drops G t (xs ++ ys) = drops G t xs ++ drops G t ys.
Proof. unfold drops. destruct (t_copy (G t)); [reflexivity|apply map_app]. Qed.
Lemma drops_nil G t : drops G t [] = [].
Proof. unfold drops. destruct (t_copy (G t)); reflexivity. Qed.
Lemma drops_cons G t x xs : drops G t (x :: xs) = drops G t [x] ++ drops G t xs.
Proof. apply (drops_app G t [x] xs). Qed.

Lemma from_bytes_enc G t v : is_value G t v -> from_bytes G t (enc G t v) = Ret v.
Proof.
  intros H. unfold from_bytes. rewrite enc_length, N.eqb_refl. cbn [assert_ obind].
  apply read_val_enc. exact H.
Qed.

Lemma from_bytes_nil G t : t_size (G t) <> 0 -> from_bytes G t [] = Panic PAssert.
Proof.
  intros H. unfold from_bytes. rewrite lenN_nil.
  destruct (0 =? t_size (G t)) eqn:E; [apply N.eqb_eq in E; lia|reflexivity].
Qed.

Lemma Forall_sized G t xs : t_size (G t) <> 0 -> Forall (is_value G t) xs.
Proof. intros H. apply Forall_forall. intros x _. apply is_value_sized. exact H. Qed.

Section Quiet.
Context (G : tenv) (HQ : drops_quietly G).

Lemma drop_val_q t v w : drop_val G t v w = (Ret tt, set_tr (w_trace w ++ drops G t [v]) w).
Proof using HQ.
  unfold drop_val, drops. destruct (t_copy (G t)).
  - rewrite app_nil_r, set_tr_same. reflexivity.
  - rewrite HQ. reflexivity.
Qed.

Lemma drop_vals_q t vs w : drop_vals G t vs w = (Ret tt, set_tr (w_trace w ++ drops G t vs) w).
Proof using HQ.
  revert w. induction vs as [|v vs IH]; intros w; cbn [drop_vals].
  - rewrite drops_nil, app_nil_r, set_tr_same. reflexivity.
  - rewrite drop_val_q, IH, set_tr_trace, set_tr_set, <- app_assoc, <- drops_cons. reflexivity.
Qed.

Lemma call_drop_q t v w :
  is_value G t v ->
  call_drop G (DropOf t) (enc G t v) w = (Ret tt, set_tr (w_trace w ++ drops G t [v]) w).
Proof using HQ.
  intros H. unfold call_drop. rewrite from_bytes_enc by exact H. apply drop_val_q.
Qed.

Lemma drop_chunks_q t xs w :
  Forall (is_value G t) xs ->
  drop_chunks G (DropOf t) (map (enc G t) xs) w =
  (Ret tt, set_tr (w_trace w ++ drops G t xs) w).
Proof using HQ.
  intros H. revert w. induction H as [|x xs Hx H IH]; intros w; cbn [map drop_chunks].
  - rewrite drops_nil, app_nil_r, set_tr_same. reflexivity.
  - rewrite call_drop_q by exact Hx.
    rewrite IH, set_tr_trace, set_tr_set, <- app_assoc, <- drops_cons. reflexivity.
Qed.

Lemma vec_drop_q t b c xs w l :
  Forall (is_value G t) xs -> ptr_ok b (c * t_size (G t)) ->
  Owns w (owned b (c * t_size (G t)) (t_align (G t)) ++ l) ->
  exists w', vec_drop G t (SVec b (lenN xs) c (encs G t xs)) w = (Ret tt, w') /\ Owns w' l /\
             w_trace w' = w_trace w ++ drops G t xs.
Proof using HQ.
  intros Hx Hp HO. unfold vec_drop, vec_elems. cbn [v_len v_bytes].
  rewrite to_nat_lenN. rewrite <- (app_nil_r (encs G t xs)).
  rewrite read_vals_encs by exact Hx. rewrite drop_vals_q.
  destruct (v_drop_ok (t_size (G t)) (t_align (G t)) (SVec b (lenN xs) c (encs G t xs ++ []))
              (set_tr (w_trace w ++ drops G t xs) w) l Hp) as (w' & E & HO' & Ht).
  { apply Owns_set_tr. exact HO. }
  rewrite E. eexists. split; [reflexivity|]. split; [exact HO'|]. rewrite Ht. reflexivity.
Qed.

Lemma vec_drop_zst_q t xs c w :
  t_size (G t) = 0 -> Forall (is_value G t) xs ->
  vec_drop G t (SVec None (lenN xs) c []) w = (Ret tt, set_tr (w_trace w ++ drops G t xs) w).
Proof using HQ.
  intros Hz Hx. unfold vec_drop, vec_elems. cbn [v_len v_bytes]. rewrite to_nat_lenN.
  assert (E : @nil mbyte = encs G t xs ++ []) by (rewrite encs_zst by exact Hz; reflexivity).
  rewrite E. rewrite read_vals_encs by exact Hx. rewrite drop_vals_q.
  unfold v_drop_nodrop, dealloc. cbn [v_blk v_cap]. rewrite Hz, N.mul_0_r. reflexivity.
Qed.

End Quiet.

(** ** Cloning *)

Section Cloning.
Context (G : tenv) (HC : clones_ok G).

Lemma clone_val_eq t v w :
  clone_val G t v w =
  match t_clone (G t) (w_trace w) v with
  | Some c => (Ret c, set_tr (w_trace w ++ [EvClone t v c]) w)
  | None => (Panic PUser, w)
  end.
Proof. reflexivity. Qed.

Lemma clone_seq_len t xs tr cs ok tr' :
  clone_seq G t xs tr = (cs, ok, tr') ->
  (List.length cs <= List.length xs)%nat /\ (ok = true -> List.length cs = List.length xs) /\
  (ok = false -> (List.length cs < List.length xs)%nat).
Proof.
  revert tr cs ok tr'. induction xs as [|x xs IH]; intros tr cs ok tr' E; cbn [clone_seq] in E.
  - injection E as <- <- <-. cbn. csplit; [lia|lia|discriminate].
  - destruct (t_clone (G t) tr x) as [c|].
    + destruct (clone_seq G t xs (tr ++ [EvClone t x c])) as [[cs' ok'] tr''] eqn:E'.
      injection E as <- <- <-. destruct (IH _ _ _ _ E') as (H1 & H2 & H3). cbn [List.length].
      csplit; intros; [lia|rewrite H2 by assumption; lia|specialize (H3 H); lia].
    + injection E as <- <- <-. cbn [List.length]. csplit; intros; [lia|discriminate|lia].
Qed.

Lemma clone_seq_values t xs tr cs ok tr' :
  clone_seq G t xs tr = (cs, ok, tr') -> Forall (is_value G t) cs.
Proof using HC.
  revert tr cs ok tr'. induction xs as [|x xs IH]; intros tr cs ok tr' E; cbn [clone_seq] in E.
  - injection E as <- <- <-. constructor.
  - destruct (t_clone (G t) tr x) as [c|] eqn:Ec.
    + destruct (clone_seq G t xs (tr ++ [EvClone t x c])) as [[cs' ok'] tr''] eqn:E'.
      injection E as <- <- <-. constructor; [eapply HC; exact Ec|eapply IH; exact E'].
    + injection E as <- <- <-. constructor.
Qed.

Lemma clone_vals_seq t xs w cs ok tr :
  clone_seq G t xs (w_trace w) = (cs, ok, tr) ->
  clone_vals G t xs w = (if ok then Ret tt else Panic PUser, cs, set_tr tr w).
Proof.
  revert w cs ok tr. induction xs as [|x xs IH]; intros w cs ok tr E; cbn [clone_seq] in E;
    cbn [clone_vals].
  - injection E as <- <- <-. rewrite set_tr_same. reflexivity.
  - rewrite clone_val_eq. destruct (t_clone (G t) (w_trace w) x) as [c|].
    + destruct (clone_seq G t xs (w_trace w ++ [EvClone t x c])) as [[cs' ok'] tr'] eqn:E'.
      injection E as <- <- <-. rewrite (IH _ cs' ok' tr') by exact E'. reflexivity.
    + injection E as <- <- <-. cbn [retype]. rewrite set_tr_same. reflexivity.
Qed.

Lemma call_clone_into_raw_eq t v dst w :
  is_value G t v -> lenN dst = t_size (G t) ->
  call_clone_into_raw G (CloneRawOf t) (enc G t v) dst w =
  match t_clone (G t) (w_trace w) v with
  | Some c => (Ret (enc G t c), set_tr (w_trace w ++ [EvClone t v c]) w)
  | None => (Panic PUser, w)
  end.
Proof.
  intros Hv Hd. unfold call_clone_into_raw. rewrite from_bytes_enc by exact Hv.
  rewrite clone_val_eq. destruct (t_clone (G t) (w_trace w) v) as [c|]; [|reflexivity].
  unfold bytes_copy_from_slice. rewrite enc_length, Hd, N.eqb_refl. reflexivity.
Qed.

Lemma clone_chunks_seq t xs ds w cs ok tr :
  Forall (is_value G t) xs -> List.length ds = List.length xs ->
  Forall (fun d => lenN d = t_size (G t)) ds ->
  clone_seq G t xs (w_trace w) = (cs, ok, tr) ->
  clone_chunks G (CloneRawOf t) (map (enc G t) xs) ds w =
  (if ok then Ret tt else Panic PUser, map (enc G t) cs ++ skipn (List.length cs) ds,
   set_tr tr w).
Proof.
  intros Hx. revert ds w cs ok tr.
  induction Hx as [|x xs Hv Hx IH]; intros ds w cs ok tr HL HD E; cbn [clone_seq] in E.
  - destruct ds; [|discriminate HL]. injection E as <- <- <-. cbn. rewrite set_tr_same. reflexivity.
  - destruct ds as [|d ds]; [discriminate HL|]. cbn [map clone_chunks].
    inversion HD as [|? ? Hd HD']; subst. rewrite call_clone_into_raw_eq by assumption.
    destruct (t_clone (G t) (w_trace w) x) as [c|].
    + destruct (clone_seq G t xs (w_trace w ++ [EvClone t x c])) as [[cs' ok'] tr'] eqn:E'.
      injection E as <- <- <-.
      rewrite (IH ds _ cs' ok' tr'); [reflexivity|injection HL as HL; exact HL|exact HD'|exact E'].
    + injection E as <- <- <-. cbn [retype map List.length skipn app].
      rewrite set_tr_same. reflexivity.
Qed.

Context (HQ : drops_quietly G).

Lemma assign_val_q t old w :
  assign_val G t old w = (Ret tt, set_tr (w_trace w ++ drops G t [old]) w).
Proof using HQ. apply drop_val_q. exact HQ. Qed.

Lemma replace_seq_len t srcs olds tr ys ok tr' :
  replace_seq G t srcs olds tr = (ys, ok, tr') -> List.length ys = List.length olds.
Proof.
  revert olds tr ys ok tr'. induction srcs as [|s srcs IH]; intros olds tr ys ok tr' E;
    cbn [replace_seq] in E.
  - injection E as <- <- <-. reflexivity.
  - destruct olds as [|o olds]; [injection E as <- <- <-; reflexivity|].
    destruct (t_clone (G t) tr s) as [c|].
    + destruct (replace_seq G t srcs olds (tr ++ [EvClone t s c] ++ drops G t [o]))
        as [[cs ok'] tr''] eqn:E'.
      injection E as <- <- <-. cbn [List.length]. f_equal. eapply IH. exact E'.
    + injection E as <- <- <-. reflexivity.
Qed.

Lemma fill_vals_seq t def xs w ys ok tr :
  replace_seq G t (repeat def (List.length xs)) xs (w_trace w) = (ys, ok, tr) ->
  fill_vals G t def xs w = (if ok then Ret tt else Panic PUser, ys, set_tr tr w).
Proof using HQ.
  revert w ys ok tr. induction xs as [|x xs IH]; intros w ys ok tr E;
    cbn [List.length repeat replace_seq] in E; cbn [fill_vals].
  - injection E as <- <- <-. rewrite set_tr_same. reflexivity.
  - rewrite clone_val_eq. destruct (t_clone (G t) (w_trace w) def) as [c|].
    + rewrite assign_val_q, set_tr_trace, set_tr_set.
      destruct (replace_seq G t (repeat def (List.length xs)) xs
                  (w_trace w ++ [EvClone t def c] ++ drops G t [x])) as [[cs ok'] tr'] eqn:E'.
      injection E as <- <- <-. rewrite <- app_assoc. rewrite (IH _ cs ok' tr') by exact E'.
      reflexivity.
    + injection E as <- <- <-. cbn [retype]. rewrite set_tr_same. reflexivity.
Qed.

Lemma clone_from_vals_seq t dst src w ys ok tr :
  replace_seq G t src dst (w_trace w) = (ys, ok, tr) ->
  clone_from_vals G t dst src w = (if ok then Ret tt else Panic PUser, ys, set_tr tr w).
Proof using HQ.
  revert src w ys ok tr. induction dst as [|d dst IH]; intros src w ys ok tr E;
    destruct src as [|s src]; cbn [replace_seq] in E; cbn [clone_from_vals].
  1,2,3: injection E as <- <- <-; rewrite set_tr_same; reflexivity.
  rewrite clone_val_eq. destruct (t_clone (G t) (w_trace w) s) as [c|].
  - rewrite assign_val_q, set_tr_trace, set_tr_set.
    destruct (replace_seq G t src dst
                (w_trace w ++ [EvClone t s c] ++ drops G t [d])) as [[cs ok'] tr'] eqn:E'.
    injection E as <- <- <-. rewrite <- app_assoc. rewrite (IH _ _ cs ok' tr') by exact E'.
    reflexivity.
  - injection E as <- <- <-. cbn [retype]. rewrite set_tr_same. reflexivity.
Qed.

Lemma call_clone_from_eq t v old w :
  is_value G t v -> is_value G t old ->
  call_clone_from G (CloneFromOf t) (enc G t old) (enc G t v) w =
  match t_clone (G t) (w_trace w) v with
  | Some c => (Ret tt, enc G t c, set_tr (w_trace w ++ [EvClone t v c] ++ drops G t [old]) w)
  | None => (Panic PUser, enc G t old, w)
  end.
Proof using HQ.
  intros Hv Ho. unfold call_clone_from. rewrite !from_bytes_enc by assumption.
  rewrite clone_val_eq. destruct (t_clone (G t) (w_trace w) v) as [c|]; [|reflexivity].
  rewrite assign_val_q, set_tr_trace, set_tr_set, <- app_assoc. reflexivity.
Qed.

End Cloning.

(** ** Accounting *)

Definition tval_dec (a b : tval) : {a = b} + {a <> b}.
Proof. decide equality; [apply Z.eq_dec|apply N.eq_dec]. Defined.

Definition cnt (q : tval) (l : list tval) : nat := count_occ tval_dec l q.

Lemma cnt_app q l l' : cnt q (l ++ l') = (cnt q l + cnt q l')%nat.
Proof. apply count_occ_app. Qed.
Lemma cnt_nil q : cnt q [] = 0%nat.
Proof. reflexivity. Qed.
Lemma cnt_perm q l l' : Permutation l l' -> cnt q l = cnt q l'.
Proof. intros H. apply (Permutation_count_occ tval_dec). exact H. Qed.

Lemma owned_vals_app G t xs ys : owned_vals G t (xs ++ ys) = owned_vals G t xs ++ owned_vals G t ys.
Proof. unfold owned_vals. destruct (t_copy (G t)); [reflexivity|apply map_app]. Qed.
Lemma owned_vals_nil G t : owned_vals G t [] = [].
Proof. unfold owned_vals. destruct (t_copy (G t)); reflexivity. Qed.
Lemma owned_vals_cons G t x xs : owned_vals G t (x :: xs) = owned_vals G t [x] ++ owned_vals G t xs.
Proof. apply (owned_vals_app G t [x] xs). Qed.
Lemma owned_vals_copy G t xs : t_copy (G t) = true -> owned_vals G t xs = [].
Proof. intros H. unfold owned_vals. rewrite H. reflexivity. Qed.
Lemma owned_vals_perm G t xs ys :
  Permutation xs ys -> Permutation (owned_vals G t xs) (owned_vals G t ys).
Proof.
  intros H. unfold owned_vals. destruct (t_copy (G t)); [constructor|apply Permutation_map, H].
Qed.
Lemma owned_vals_list_set G t xs i x old :
  nth_error xs i = Some old ->
  Permutation (owned_vals G t xs ++ owned_vals G t [x])
              (owned_vals G t (list_set xs i x) ++ owned_vals G t [old]).
Proof.
  intros H. rewrite <- !owned_vals_app. apply owned_vals_perm.
  assert (Hi : (i < List.length xs)%nat) by (apply nth_error_Some; rewrite H; discriminate).
  rewrite list_set_split by exact Hi.
  rewrite <- (firstn_skipn i xs) at 1.
  assert (E : skipn i xs = old :: skipn (S i) xs).
  { clear Hi. revert xs H. induction i as [|i IH]; intros [|y xs] H; try discriminate.
    - injection H as ->. reflexivity.
    - cbn [skipn]. apply IH. exact H. }
  rewrite E. rewrite <- !app_assoc. apply Permutation_app_head. cbn [app].
  rewrite (Permutation_app_comm (skipn (S i) xs) [x]). cbn [app].
  rewrite perm_swap. apply perm_skip. rewrite Permutation_app_comm. reflexivity.
Qed.

Lemma dropped_app G a b : dropped G (a ++ b) = dropped G a ++ dropped G b.
Proof. apply flat_map_app. Qed.
Lemma cloned_app G a b : cloned G (a ++ b) = cloned G a ++ cloned G b.
Proof. apply flat_map_app. Qed.
Lemma dropped_drops G t xs : dropped G (drops G t xs) = owned_vals G t xs.
Proof.
  unfold drops, owned_vals. destruct (t_copy (G t)) eqn:E; [reflexivity|].
  induction xs as [|x xs IH]; [reflexivity|]. cbn [map dropped flat_map].
  unfold dropped in IH. rewrite IH. unfold owned_vals. rewrite E. reflexivity.
Qed.
Lemma cloned_drops G t xs : cloned G (drops G t xs) = [].
Proof.
  unfold drops. destruct (t_copy (G t)) eqn:E; [reflexivity|].
  induction xs as [|x xs IH]; [reflexivity|]. exact IH.
Qed.
Lemma dropped_clone G t v c : dropped G [EvClone t v c] = [].
Proof. reflexivity. Qed.
Lemma cloned_clone G t v c : cloned G [EvClone t v c] = owned_vals G t [c].
Proof. cbn. apply app_nil_r. Qed.

(** Value accounting of an operation that goes from trace [tr] to [tr']: what was there, what the
    user gave and what clones created is what is there, what the user got, what was dropped and
    what was lost. *)
Definition bal (G : tenv) (before gives : list tval) (tr : list event)
    (after takes lost : list tval) (tr' : list event) : Prop :=
  forall q, (cnt q before + cnt q gives + cnt q (cloned G tr') + cnt q (dropped G tr) =
             cnt q after + cnt q takes + cnt q lost + cnt q (cloned G tr) + cnt q (dropped G tr'))%nat.

Ltac cnts q :=
  repeat (rewrite ?cloned_app, ?dropped_app, ?cloned_drops, ?dropped_drops, ?cloned_clone,
            ?dropped_clone, ?owned_vals_app, ?owned_vals_nil, ?cnt_app, ?cnt_nil).
Ltac balq := intros q; cnts q; try lia.

Lemma clone_seq_bal G t xs tr cs ok tr' :
  clone_seq G t xs tr = (cs, ok, tr') -> bal G [] [] tr (owned_vals G t cs) [] [] tr'.
Proof.
  revert tr cs ok tr'. induction xs as [|x xs IH]; intros tr cs ok tr' E; cbn [clone_seq] in E.
  - injection E as <- <- <-. balq.
  - destruct (t_clone (G t) tr x) as [c|].
    + destruct (clone_seq G t xs (tr ++ [EvClone t x c])) as [[cs' ok'] tr''] eqn:E'.
      injection E as <- <- <-. intros q. specialize (IH _ _ _ _ E' q).
      rewrite (owned_vals_cons G t c cs'). revert IH. cnts q. lia.
    + injection E as <- <- <-. balq.
Qed.

Lemma replace_seq_bal G t srcs olds tr ys ok tr' :
  replace_seq G t srcs olds tr = (ys, ok, tr') ->
  bal G (owned_vals G t olds) [] tr (owned_vals G t ys) [] [] tr'.
Proof.
  revert olds tr ys ok tr'. induction srcs as [|s srcs IH]; intros olds tr ys ok tr' E;
    cbn [replace_seq] in E.
  - injection E as <- <- <-. balq.
  - destruct olds as [|o olds]; [injection E as <- <- <-; balq|].
    destruct (t_clone (G t) tr s) as [c|].
    + destruct (replace_seq G t srcs olds (tr ++ [EvClone t s c] ++ drops G t [o]))
        as [[cs ok'] tr''] eqn:E'.
      injection E as <- <- <-. intros q. specialize (IH _ _ _ _ _ E' q).
      rewrite (owned_vals_cons G t c cs), (owned_vals_cons G t o olds). revert IH. cnts q. lia.
    + injection E as <- <- <-. balq.
Qed.

Lemma swapN_perm {A} i j (l : list A) : Permutation (swapN i j l) l.
Proof.
  unfold swapN. destruct (nthN l i) as [a|] eqn:Ei; [|reflexivity].
  destruct (nthN l j) as [b|] eqn:Ej; [|reflexivity].
  unfold nthN in *.
  assert (HS : forall (l : list A) i x old, nth_error l i = Some old ->
            Permutation (x :: l) (old :: list_set l i x)).
  { clear. induction l as [|y l IH]; intros [|i] x old H; cbn in *; try discriminate.
    - injection H as ->. apply perm_swap.
    - rewrite perm_swap. rewrite (IH i x old H). rewrite perm_swap. reflexivity. }
  apply (Permutation_cons_inv (a := b)). symmetry.
  rewrite (HS l (N.to_nat i) b a) by exact Ei.
  apply HS. rewrite nth_error_list_set. destruct (Nat.eqb_spec (N.to_nat i) (N.to_nat j)).
  - rewrite Ei. reflexivity.
  - exact Ej.
Qed.
