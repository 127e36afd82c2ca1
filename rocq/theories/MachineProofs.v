(** * Invariant and refinement for programs over any number of [VecCopy] buffers. *)

From Verif Require Export CtorProofs.

(** ** Permutations of the blocks of a store *)

Lemma flat_map_set {A B} (f : A -> list B) (l : list A) h s :
  nth_error l h = Some s ->
  exists rest, Permutation (flat_map f l) (f s ++ rest) /\
    forall s', Permutation (flat_map f (list_set l h s')) (f s' ++ rest).
Proof.
  revert h. induction l as [|x l IH]; intros [|h]; cbn [nth_error]; try discriminate.
  - intros [= ->]. exists (flat_map f l). cbn. auto.
  - intros H. destruct (IH h H) as (rest & H1 & H2). exists (f x ++ rest). cbn [flat_map list_set].
    split.
    + rewrite H1. rewrite !app_assoc. apply Permutation_app_tail. apply Permutation_app_comm.
    + intros s'. rewrite (H2 s'). rewrite !app_assoc. apply Permutation_app_tail. apply Permutation_app_comm.
Qed.

Lemma flat_map_set2 {A B} (f : A -> list B) (l : list A) h h' s s' :
  nth_error l h = Some s -> nth_error l h' = Some s' -> h <> h' ->
  exists rest, Permutation (flat_map f l) (f s ++ f s' ++ rest) /\
    forall x y, Permutation (flat_map f (list_set (list_set l h x) h' y)) (f x ++ f y ++ rest).
Proof.
  revert h h'. induction l as [|a l IH]; intros [|h] [|h']; cbn [nth_error]; try discriminate.
  - intros _ _ Hne. now elim Hne.
  - intros [= ->] H _. destruct (flat_map_set f l h' s' H) as (rest & H1 & H2).
    exists rest. cbn [flat_map list_set]. split; [now rewrite H1|]. intros x y. now rewrite H2.
  - intros H [= ->] _. destruct (flat_map_set f l h s H) as (rest & H1 & H2).
    exists rest. cbn [flat_map list_set]. split.
    + rewrite H1. apply Permutation_app_swap_app.
    + intros x y. rewrite H2. apply Permutation_app_swap_app.
  - intros H H' Hne. destruct (IH h h' H H') as (rest & H1 & H2); [congruence|].
    exists (f a ++ rest). cbn [flat_map list_set].
    assert (Hp : forall u v, Permutation (f a ++ f u ++ f v ++ rest) (f u ++ f v ++ f a ++ rest)).
    { intros u v. rewrite Permutation_app_swap_app. apply Permutation_app_head.
      apply Permutation_app_swap_app. }
    split; [now rewrite H1|]. intros x y. now rewrite H2.
Qed.

Lemma Forall2_set {A B} (R : A -> B -> Prop) l l' h x y :
  Forall2 R l l' -> R x y -> Forall2 R (list_set l h x) (list_set l' h y).
Proof.
  intros H Hxy. revert h. induction H as [|a b l l' Hab H IH]; intros [|h]; cbn; constructor; auto.
Qed.

Lemma Forall_set {A} (Q : A -> Prop) l h x : Forall Q l -> Q x -> Forall Q (list_set l h x).
Proof.
  intros H Hx. revert h. induction H as [|a l Ha H IH]; intros [|h]; cbn; constructor; auto.
Qed.

Lemma Forall2_nth {A B} (R : A -> B -> Prop) l l' h x :
  Forall2 R l l' -> nth_error l h = Some x -> exists y, nth_error l' h = Some y /\ R x y.
Proof.
  intros H. revert h. induction H as [|a b l l' Hab H IH]; intros [|h]; cbn; try discriminate.
  - intros [= <-]. eauto.
  - apply IH.
Qed.

Lemma Forall2_nth_none {A B} (R : A -> B -> Prop) l l' h :
  Forall2 R l l' -> nth_error l h = None -> nth_error l' h = None.
Proof.
  intros H. revert h. induction H as [|a b l l' Hab H IH]; intros [|h]; cbn; try discriminate; auto.
Qed.

Lemma list_set_same {A} (l : list A) h x : nth_error l h = Some x -> list_set l h x = l.
Proof.
  revert h. induction l as [|a l IH]; intros [|h]; cbn; try discriminate.
  - now intros [= ->].
  - intros H. now rewrite IH.
Qed.

Section Machine.
Context {V : Type} (P : profile) (G : tenv) (HG : wf_tenv G) (build : tyid -> V).

(** ** The invariant *)

(** The slot holds the list [xs] of values of type [t]. *)
Definition holds (b : veccopy V) (t : tyid) (xs : list payload) : Prop :=
  Rep G t (vc_data b) xs /\ t_copy (G t) = true.

Definition slot_ok (s : option (veccopy V)) : Prop :=
  match s with
  | None => True
  | Some b => (exists t xs, holds b t xs) \/ Poisoned (vc_data b)
  end.

Definition slot_rel (s : option (veccopy V)) (a : option (tyid * list payload)) : Prop :=
  match s, a with
  | None, None => True
  | Some b, Some (t, xs) => holds b t xs
  | _, _ => False
  end.

Definition rel (st : cstate) (lst : lstore) : Prop := Forall2 slot_rel (c_store st) lst.

Definition slot_blocks (s : option (veccopy V)) : list block :=
  match s with Some b => buf_block b | None => [] end.

Definition inv (st : cstate (V := V)) (leak : list block) : Prop :=
  Forall slot_ok (c_store st) /\ Owns (c_world st) (owned_blocks st ++ leak).

Lemma buf_block_own (b : veccopy V) : buf_block b = vv_own (vc_data b).
Proof. reflexivity. Qed.

Lemma get_some (st : cstate (V := V)) h b : get st h = Some b <-> nth_error (c_store st) h = Some (Some b).
Proof.
  unfold get. destruct (nth_error (c_store st) h) as [[x|]|]; split; congruence.
Qed.

Definition lget (lst : lstore) (h : nat) : option (tyid * list payload) :=
  match nth_error lst h with Some (Some b) => Some b | _ => None end.

Lemma rel_get st lst h b :
  rel st lst -> get st h = Some b ->
  exists t xs, nth_error lst h = Some (Some (t, xs)) /\ holds b t xs.
Proof.
  intros HR Hg. apply get_some in Hg. destruct (Forall2_nth _ _ _ _ _ HR Hg) as (y & Hy & Hs).
  destruct y as [[t xs]|]; [|contradiction]. eauto.
Qed.

Lemma rel_get_none st lst h :
  rel st lst -> get st h = None ->
  nth_error lst h = None \/ nth_error lst h = Some None.
Proof.
  intros HR Hg. unfold get in Hg. destruct (nth_error (c_store st) h) as [[x|]|] eqn:E; [discriminate| |].
  - right. destruct (Forall2_nth _ _ _ _ _ HR E) as (y & Hy & Hs). destruct y; [contradiction|assumption].
  - left. now apply (Forall2_nth_none _ _ _ _ HR).
Qed.

Lemma holds_fun b t xs t' xs' : holds b t xs -> holds b t' xs' -> t = t' /\ xs = xs'.
Proof.
  intros [H _] [H' _]. pose proof (rep_type G _ _ _ H) as E. rewrite (rep_type G _ _ _ H') in E.
  subst t'. split; [reflexivity|]. apply (encs_inj G t); [apply H|].
  rewrite <- (rep_bytes _ _ _ _ H), <- (rep_bytes _ _ _ _ H'). reflexivity.
Qed.

(** Taking one buffer out of the store. *)
Lemma inv_out st leak h b :
  inv st leak -> get st h = Some b ->
  exists rest, Owns (c_world st) (vv_own (vc_data b) ++ rest ++ leak) /\
    (forall w' s' leak', slot_ok s' -> Owns w' (slot_blocks s' ++ rest ++ leak' ++ leak) ->
       inv (CState (list_set (c_store st) h s') w') (leak' ++ leak)).
Proof.
  intros [HF HO] Hg. apply get_some in Hg.
  destruct (flat_map_set slot_blocks (c_store st) h (Some b) Hg) as (rest & H1 & H2).
  exists rest. split.
  - eapply Owns_perm; [|exact HO]. unfold owned_blocks. fold slot_blocks. rewrite H1.
    cbn [slot_blocks]. now rewrite <- app_assoc.
  - intros w' s' leak' Hs HO'. split; [now apply Forall_set|]. cbn [c_world c_store].
    eapply Owns_perm; [|exact HO']. unfold owned_blocks. cbn [c_store]. fold slot_blocks.
    rewrite H2. now rewrite <- app_assoc.
Qed.

Lemma inv_out0 st leak h b :
  inv st leak -> get st h = Some b ->
  exists rest, Owns (c_world st) (vv_own (vc_data b) ++ rest ++ leak) /\
    (forall w' s', slot_ok s' -> Owns w' (slot_blocks s' ++ rest ++ leak) ->
       inv (CState (list_set (c_store st) h s') w') leak) /\
    (forall w' s' leak', slot_ok s' -> Owns w' (slot_blocks s' ++ rest ++ leak' ++ leak) ->
       inv (CState (list_set (c_store st) h s') w') (leak' ++ leak)).
Proof.
  intros HI Hg. destruct (inv_out st leak h b HI Hg) as (rest & H1 & H2). exists rest.
  csplit; try assumption. intros w' s' Hs HO. apply (H2 w' s' []); assumption.
Qed.

(** Adding a buffer. *)
Lemma inv_add st leak b w' :
  inv st leak -> slot_ok (Some b) ->
  Owns w' (vv_own (vc_data b) ++ owned_blocks st ++ leak) ->
  inv (CState (c_store st ++ [Some b]) w') leak.
Proof.
  intros [HF HO] Hs HO'. split; cbn [c_store c_world].
  - apply Forall_app. auto.
  - eapply Owns_perm; [|exact HO']. unfold owned_blocks. cbn [c_store]. rewrite flat_map_app. cbn [flat_map].
    rewrite app_nil_r, buf_block_own. rewrite app_assoc. apply Permutation_app_tail. apply Permutation_app_comm.
Qed.

Lemma inv_world st leak leak' w' :
  inv st leak -> Owns w' (leak' ++ owned_blocks st ++ leak) ->
  inv (CState (c_store st) w') (leak' ++ leak).
Proof.
  intros [HF HO] HO'. split; [exact HF|]. cbn [c_world]. eapply Owns_perm; [|exact HO'].
  unfold owned_blocks. cbn [c_store]. apply Permutation_app_swap_app.
Qed.

Lemma slot_ok_get st leak h b :
  inv st leak -> get st h = Some b -> (exists t xs, holds b t xs) \/ Poisoned (vc_data b).
Proof.
  intros [HF _] Hg. apply get_some in Hg. rewrite Forall_forall in HF.
  apply (HF (Some b)). now apply nth_error_In in Hg.
Qed.

(** A represented buffer is not poisoned. *)
Lemma holds_not_poisoned b t xs : holds b t xs -> ~ Poisoned (vc_data b).
Proof. intros [H _] HP. apply (rep_blk _ _ _ _ H). apply HP. Qed.

(** ** What the buffers hold, poisoned ones included *)

Definition slot_held (s : option (veccopy V)) (a : option held) : Prop :=
  match s, a with
  | None, None => True
  | Some b, Some (Holds t xs) => holds b t xs
  | Some b, Some Lost => Poisoned (vc_data b)
  | _, _ => False
  end.

Definition hrel (st : cstate) (hst : hstore) : Prop := Forall2 slot_held (c_store st) hst.

Lemma hget_some hst h x : hget hst h = Some x <-> nth_error hst h = Some (Some x).
Proof. unfold hget. destruct (nth_error hst h) as [[y|]|]; split; congruence. Qed.

Lemma hrel_get st hst h b :
  hrel st hst -> get st h = Some b -> exists x, hget hst h = Some x /\ slot_held (Some b) (Some x).
Proof.
  intros HR Hg. apply get_some in Hg. destruct (Forall2_nth _ _ _ _ _ HR Hg) as (y & Hy & Hs).
  destruct y as [x|]; [|contradiction]. exists x. split; [now apply hget_some|exact Hs].
Qed.

Lemma hrel_holds st hst h b t xs :
  hrel st hst -> get st h = Some b -> holds b t xs -> hget hst h = Some (Holds t xs).
Proof.
  intros HR Hg Hh. destruct (hrel_get _ _ _ _ HR Hg) as ([t' xs'|] & Hx & Hs); cbn in Hs.
  - destruct (holds_fun _ _ _ _ _ Hh Hs) as [<- <-]. exact Hx.
  - now elim (holds_not_poisoned _ _ _ Hh).
Qed.

Lemma hrel_lost st hst h b :
  hrel st hst -> get st h = Some b -> Poisoned (vc_data b) -> hget hst h = Some Lost.
Proof.
  intros HR Hg HP. destruct (hrel_get _ _ _ _ HR Hg) as ([t' xs'|] & Hx & Hs); cbn in Hs; [|exact Hx].
  now elim (holds_not_poisoned _ _ _ Hs).
Qed.

Lemma hrel_none st hst h : hrel st hst -> get st h = None -> hget hst h = None.
Proof.
  intros HR Hg. unfold get in Hg. unfold hget.
  destruct (nth_error (c_store st) h) as [[x|]|] eqn:E; [discriminate| |].
  - destruct (Forall2_nth _ _ _ _ _ HR E) as (y & -> & Hs). now destruct y.
  - now rewrite (Forall2_nth_none _ _ _ _ HR E).
Qed.

Lemma hrel_set st hst h s a w' :
  hrel st hst -> slot_held s a -> hrel (CState (list_set (c_store st) h s) w') (list_set hst h a).
Proof. intros HR Hs. unfold hrel. cbn [c_store]. now apply Forall2_set. Qed.

(** The list store of buffers none of which lost its contents. *)
Definition hlift (lst : lstore) : hstore :=
  map (option_map (fun b => Holds (fst b) (snd b))) lst.

Lemma hlift_rel st lst : rel st lst -> hrel st (hlift lst).
Proof.
  unfold rel, hrel. intros H. induction H as [|s a l l' Hs H IH]; cbn; constructor; [|exact IH].
  destruct s as [b|], a as [[t xs]|]; try contradiction; exact Hs.
Qed.

Lemma hlift_unrel st lst : hrel st (hlift lst) -> rel st lst.
Proof.
  unfold rel, hrel. generalize (c_store st) as l. induction lst as [|a lst IH]; intros l H; cbn in H;
    inversion H as [|s x l' xs' Hs H']; subst; constructor; [|now apply IH].
  destruct s as [b|], a as [[t xs]|]; try contradiction; exact Hs.
Qed.

Lemma hget_hlift lst h :
  hget (hlift lst) h
  = match match nth_error lst h with Some (Some b) => Some b | _ => None end with
    | Some (t, xs) => Some (Holds t xs) | None => None end.
Proof.
  unfold hget, hlift. rewrite nth_error_map. destruct (nth_error lst h) as [[[t xs]|]|]; reflexivity.
Qed.

Lemma hlift_set lst h t xs :
  list_set (hlift lst) h (Some (Holds t xs)) = hlift (list_set lst h (Some (t, xs))).
Proof. revert h. induction lst as [|a lst IH]; intros [|h]; cbn; try reflexivity. now f_equal. Qed.
Lemma hlift_unset lst h : list_set (hlift lst) h None = hlift (list_set lst h None).
Proof. revert h. induction lst as [|a lst IH]; intros [|h]; cbn; try reflexivity. now f_equal. Qed.

(** A call on such buffers that returns does what Spec.v says. *)
Lemma acts_returns lst s r hst' :
  acts G (hlift lst) (XStep s) (Some (XAns r)) hst' ->
  exists lst', hst' = hlift lst' /\ list_step G s lst = Some (r, lst').
Proof.
  intros H. inversion H; subst; clear H; unfold unusable in *;
    repeat match goal with
    | H : hget (hlift _) _ = _ |- _ => rewrite hget_hlift in H
    end; cbn [list_step].
  - exists lst. split; [reflexivity|]. destruct s as [c|h|h|h|h t|h h'|h c]; try contradiction; cbn [list_step];
      rewrite ?hget_hlift in *;
      repeat match goal with
      | |- context [match nth_error lst ?h with _ => _ end] => destruct (nth_error lst h) as [[[? ?]|]|]
      end; try congruence; try reflexivity.
    match goal with H : _ \/ _ |- _ => destruct H as [H|[H| ->]]; try discriminate end.
    now rewrite Nat.eqb_refl.
  - eexists (lst ++ [Some (t, xs)]). match goal with H : list_ctor _ _ = _ |- _ => rewrite H end.
    split; [|reflexivity]. unfold hlift. now rewrite map_app.
  - eexists (lst ++ [Some (t, [])]). destruct (nth_error lst h) as [[[? ?]|]|]; try discriminate.
    match goal with H : Some _ = Some _ |- _ => injection H as -> -> end.
    split; [|reflexivity]. unfold hlift. now rewrite map_app.
  - eexists (lst ++ [Some (t, xs)]). destruct (nth_error lst h) as [[[? ?]|]|]; try discriminate.
    match goal with H : Some _ = Some _ |- _ => injection H as -> -> end.
    split; [|reflexivity]. unfold hlift. now rewrite map_app.
  - rewrite hlift_unset. eexists. split; [reflexivity|].
    destruct (nth_error lst h) as [[[? ?]|]|]; try discriminate. reflexivity.
  - rewrite hlift_unset. eexists. split; [reflexivity|].
    destruct (nth_error lst h) as [[[? ?]|]|]; try discriminate.
    match goal with H : Some _ = Some _ |- _ => injection H as -> -> end. reflexivity.
  - destruct (nth_error lst h) as [[[? ?]|]|]; discriminate.
  - rewrite !hlift_set. eexists. split; [reflexivity|].
    destruct (nth_error lst h) as [[[? ?]|]|]; try discriminate.
    destruct (nth_error lst h') as [[[? ?]|]|]; try discriminate.
    repeat match goal with H : Some _ = Some _ |- _ => injection H as -> -> end.
    match goal with H : h <> h' |- _ => apply Nat.eqb_neq in H; rewrite H end. now rewrite N.eqb_refl.
  - eexists. split; [reflexivity|].
    destruct (nth_error lst h) as [[[? ?]|]|]; try discriminate.
    destruct (nth_error lst h') as [[[? ?]|]|]; try discriminate.
    repeat match goal with H : Some _ = Some _ |- _ => injection H as <- end.
    match goal with H : h <> h' |- _ => apply Nat.eqb_neq in H; rewrite H end.
    match goal with |- context [?a =? ?b] => destruct (a =? b) eqn:E; [|reflexivity] end.
    apply N.eqb_eq in E. now subst.
  - rewrite hlift_set. eexists. split; [reflexivity|].
    destruct (nth_error lst h) as [[[? ?]|]|]; try discriminate.
    match goal with H : Some _ = Some _ |- _ => injection H as -> -> end.
    match goal with H : list_call _ _ _ = _ |- _ => now rewrite H end.
  - destruct (nth_error lst h) as [[[? ?]|]|]; discriminate.
Qed.

(** ** One step *)

Inductive step_acts (s : step) (st : cstate (V := V)) (leak : list block)
  : outcome report * cstate (V := V) -> Prop :=
| SA_ret r st' :
    inv st' leak ->
    (forall hst, hrel st hst ->
       exists hst', acts G hst (XStep s) (Some (XAns r)) hst' /\ hrel st' hst') ->
    step_acts s st leak (Ret r, st')
| SA_panic p st' leak' :
    inv st' (leak' ++ leak) ->
    (forall hst, hrel st hst -> exists hst', acts G hst (XStep s) None hst' /\ hrel st' hst') ->
    step_acts s st leak (Panic p, st').

Lemma step_invalid s st leak :
  inv st leak -> (forall hst, hrel st hst -> unusable hst (XStep s)) ->
  step_acts s st leak (Ret RInvalid, st).
Proof.
  intros HI H. apply SA_ret; [exact HI|]. intros hst HR. exists hst. split; [|exact HR].
  apply A_invalid. now apply H.
Qed.

Lemma new_buf_post s st leak r :
  inv st leak ->
  match r with
  | (Ret b, w') =>
      exists t xs, holds b t xs /\ Owns w' (vv_own (vc_data b) ++ owned_blocks st ++ leak) /\
        (forall hst, hrel st hst ->
           acts G hst (XStep s) (Some (XAns (RObs OUnit))) (hst ++ [Some (Holds t xs)]))
  | (Panic p, w') => (exists leak', Owns w' (leak' ++ owned_blocks st ++ leak)) /\
        (forall hst, hrel st hst -> acts G hst (XStep s) None hst)
  | _ => False
  end ->
  step_acts s st leak (new_buf r st).
Proof.
  intros HI H. destruct r as [[b|p|u|] w']; try contradiction; cbn [new_buf].
  - destruct H as (t & xs & Hh & HO & HL). apply SA_ret.
    + apply inv_add; try assumption. left. eauto.
    + intros hst HR. exists (hst ++ [Some (Holds t xs)]). split; [now apply HL|].
      unfold hrel. cbn [c_store]. apply Forall2_app; [exact HR|]. constructor; [exact Hh|constructor].
  - destruct H as ((leak' & HO) & HA). cbn [retype]. apply (SA_panic s st leak p _ leak').
    + now apply inv_world.
    + intros hst HR. exists hst. split; [now apply HA|exact HR].
Qed.

Lemma veccopy_eta (b : veccopy V) : b = VecCopy (vc_data b) (vc_vtable b).
Proof. now destruct b. Qed.

Lemma run_step_acts s st leak :
  inv st leak -> step_typed G s -> step_in_range P G s st ->
  step_acts s st leak (run_step P G build s st).
Proof.
  intros HI Hty Hin.
  assert (HO : Owns (c_world st) (owned_blocks st ++ leak)) by apply HI.
  destruct s as [c|h|h|h|h t|h h'|h c]; cbn [run_step step_typed step_in_range] in *.
  - (* MNew *)
    apply new_buf_post; [exact HI|].
    pose proof (run_ctor_post P G HG build c (c_world st) _ Hty HO) as HC.
    inversion HC as [t xs d w' Hlc Hc HR HO' HE|p w' HO' Hk Hp HE|p w' lk hint vals Hc Hp HO' HE].
    + exists t, xs. csplit; try assumption; [now split|]. intros hst _. now apply A_new.
    + split; [exists []; exact HO'|]. intros hst _. now apply A_new_panics.
    + split; [eauto|]. intros hst _. now apply A_new_panics.
  - (* MWithTypeFrom *)
    destruct (get st h) as [b|] eqn:Hg.
    2:{ apply step_invalid; [exact HI|]. intros hst HR. now apply (hrel_none st hst h HR Hg). }
    apply new_buf_post; [exact HI|].
    destruct (slot_ok_get st leak h b HI Hg) as [(t & xs & Hh)|HP].
    + destruct Hh as [HR Hc]. unfold meta_of_vec. rewrite (rep_elem _ _ _ _ HR).
      destruct (vc_with_type_from_rep P G HG t (vc_vtable b) (c_world st) _ (rep_sized _ _ _ _ HR) HO)
        as (d & w' & -> & HR' & _ & HO' & _).
      exists t, []. csplit; [now split|exact HO'|]. intros hst HRel.
      apply (A_with_type_from G hst h t xs). eapply hrel_holds; [exact HRel|exact Hg|now split].
    + rewrite (veccopy_eta b), (poisoned_shape _ HP).
      destruct (vc_with_type_from_pois P (vv_len (vc_data b)) (vv_cap (vc_data b)) (vc_vtable b) (c_world st)) as [p ->].
      split; [exists []; exact HO|]. intros hst HRel. apply A_with_type_from_lost. eapply hrel_lost; eassumption.
  - (* MClone *)
    destruct (get st h) as [b|] eqn:Hg.
    2:{ apply step_invalid; [exact HI|]. intros hst HR. now apply (hrel_none st hst h HR Hg). }
    apply new_buf_post; [exact HI|].
    destruct (slot_ok_get st leak h b HI Hg) as [(t & xs & Hh)|HP].
    + destruct Hh as [HR Hc]. destruct (inv_out0 st leak h b HI Hg) as (rest & HO1 & Hback & _).
      unfold vc_clone.
      destruct (vv_clone_rep P G HG t (vc_data b) xs (c_world st) _ HR HO1)
        as (d & w' & -> & HR' & _ & HO' & _).
      exists t, xs. csplit; [now split| |].
      * cbn [vc_data]. apply get_some in Hg.
        destruct (flat_map_set slot_blocks (c_store st) h (Some b) Hg) as (rest' & H1 & _).
        assert (HO2 : Owns (c_world st) (vv_own (vc_data b) ++ rest' ++ leak)).
        { eapply Owns_perm; [|exact HO]. unfold owned_blocks. fold slot_blocks. rewrite H1.
          cbn [slot_blocks]. now rewrite <- app_assoc. }
        eapply Owns_perm; [|exact HO']. apply Permutation_app_head.
        transitivity (w_live (c_world st)); [symmetry; apply HO1|apply HO].
      * intros hst HRel. apply A_clone. eapply hrel_holds; [exact HRel|exact Hg|now split].
    + rewrite (veccopy_eta b), (poisoned_shape _ HP).
      destruct (vc_clone_pois P (vv_len (vc_data b)) (vv_cap (vc_data b)) (vc_vtable b) (c_world st)) as [p ->].
      split; [exists []; exact HO|]. intros hst HRel. apply A_clone_lost. eapply hrel_lost; eassumption.
  - (* MDrop *)
    destruct (get st h) as [b|] eqn:Hg.
    2:{ apply step_invalid; [exact HI|]. intros hst HR. now apply (hrel_none st hst h HR Hg). }
    destruct (inv_out0 st leak h b HI Hg) as (rest & HO1 & Hback & _).
    assert (Hlist : forall w' hst, hrel st hst ->
      exists hst', acts G hst (XStep (MDrop h)) (Some (XAns (RObs OUnit))) hst' /\
                   hrel (CState (list_set (c_store st) h None) w') hst').
    { intros w' hst HRel. destruct (hrel_get _ _ _ _ HRel Hg) as (x & Hx & _).
      eexists. split; [apply (A_drop G hst h x Hx)|]. apply hrel_set; [exact HRel|exact I]. }
    unfold vc_drop.
    destruct (slot_ok_get st leak h b HI Hg) as [(t & xs & HR & Hc)|HP].
    + destruct (vv_drop_rep P G HG t (vc_data b) xs (c_world st) _ HR HO1) as (w' & -> & HO' & _).
      cbn [obind]. apply SA_ret; [|intros; now apply Hlist]. apply Hback; [exact I|exact HO'].
    + rewrite vv_drop_poisoned by exact HP. cbn [obind].
      apply SA_ret; [|intros; now apply Hlist]. apply Hback; [exact I|].
      rewrite vv_own_poisoned in HO1 by exact HP. exact HO1.
  - (* MIntoVec *)
    destruct (get st h) as [b|] eqn:Hg.
    2:{ apply step_invalid; [exact HI|]. intros hst HR. now apply (hrel_none st hst h HR Hg). }
    destruct (inv_out0 st leak h b HI Hg) as (rest & HO1 & Hback & _).
    destruct (slot_ok_get st leak h b HI Hg) as [(ty & xs & HR & Hc)|HP].
    + assert (Hlist : forall w' hst, hrel st hst ->
        exists hst', acts G hst (XStep (MIntoVec h t)) (Some (XAns (RObs (OVals (typed t ty xs))))) hst' /\
                     hrel (CState (list_set (c_store st) h None) w') hst').
      { intros w' hst HRel. exists (list_set hst h None). split; [|apply hrel_set; [exact HRel|exact I]].
        apply A_into_vec. eapply hrel_holds; [exact HRel|exact Hg|now split]. }
      unfold typed in Hlist. destruct (N.eq_dec t ty) as [->|Hne].
      * rewrite (veccopy_eta b). rewrite N.eqb_refl in Hlist.
        destruct (into_vec_rep P G HG ty (vc_data b) (vc_vtable b) xs (c_world st) _ HR Hc HO1)
          as (vec & w' & -> & _ & _ & _ & -> & -> & HO' & _).
        cbn [obind]. apply SA_ret; [apply Hback; [exact I|exact HO']|intros; now apply Hlist].
      * rewrite (veccopy_eta b). apply N.eqb_neq in Hne as Hne'. rewrite Hne' in Hlist.
        destruct (into_vec_other P G HG ty t (vc_data b) (vc_vtable b) xs (c_world st) _ HR Hne HO1)
          as (w' & -> & HO' & _).
        apply SA_ret; [apply Hback; [exact I|exact HO']|intros; now apply Hlist].
    + rewrite vv_own_poisoned in HO1 by exact HP.
      assert (Hlost : forall r hst, hrel st hst ->
        exists hst', acts G hst (XStep (MIntoVec h t)) (Some (XAns (RObs (OVals r)))) hst' /\
                     hrel (CState (list_set (c_store st) h None) (c_world st)) hst').
      { intros r hst HRel. exists (list_set hst h None). split; [|apply hrel_set; [exact HRel|exact I]].
        apply A_into_vec_lost. eapply hrel_lost; eassumption. }
      rewrite (veccopy_eta b), (poisoned_shape _ HP).
      destruct (into_vec_pois P G HG t (vv_len (vc_data b)) (vv_cap (vc_data b)) (vc_vtable b) (c_world st))
        as ([vec|] & -> & Ho).
      * destruct Ho as (vs & -> & ->). cbn [obind]. apply SA_ret; [|auto].
        apply Hback; [exact I|exact HO1].
      * apply SA_ret; [|auto]. apply Hback; [exact I|exact HO1].
  - (* MAppend *)
    destruct (get st h) as [b|] eqn:Hg.
    2:{ apply step_invalid; [exact HI|]. intros hst HR. left. now apply (hrel_none st hst h HR Hg). }
    destruct (get st h') as [b'|] eqn:Hg'.
    2:{ apply step_invalid; [exact HI|]. intros hst HR. right. left. now apply (hrel_none st hst h' HR Hg'). }
    destruct (h =? h')%nat eqn:Eh.
    { apply step_invalid; [exact HI|]. intros hst HR. right. right. now apply Nat.eqb_eq. }
    apply Nat.eqb_neq in Eh as Hne. pose proof Hg as Hn. pose proof Hg' as Hn'.
    apply get_some in Hn. apply get_some in Hn'.
    destruct (flat_map_set2 slot_blocks (c_store st) h h' _ _ Hn Hn' Hne) as (rest & H1 & H2).
    assert (HO1 : Owns (c_world st) (vv_own (vc_data b) ++ vv_own (vc_data b') ++ rest ++ leak)).
    { eapply Owns_perm; [|exact HO]. unfold owned_blocks. fold slot_blocks. rewrite H1.
      cbn [slot_blocks]. now rewrite <- !app_assoc. }
    assert (Hback : forall w' b1 b1' leak', slot_ok (Some b1) -> slot_ok (Some b1') ->
      Owns w' (vv_own (vc_data b1) ++ vv_own (vc_data b1') ++ rest ++ leak' ++ leak) ->
      inv (CState (list_set (list_set (c_store st) h (Some b1)) h' (Some b1')) w') (leak' ++ leak)).
    { intros w' b1 b1' leak' Hs Hs' HOx. split.
      - cbn [c_store]. apply Forall_set; [apply Forall_set; [apply HI|exact Hs]|exact Hs'].
      - cbn [c_world]. eapply Owns_perm; [|exact HOx]. unfold owned_blocks. cbn [c_store].
        fold slot_blocks. rewrite (H2 (Some b1) (Some b1')). cbn [slot_blocks]. now rewrite <- !app_assoc. }
    assert (Hsame : list_set (list_set (c_store st) h (Some b)) h' (Some b') = c_store st).
    { rewrite (list_set_same _ _ _ Hn). now apply list_set_same. }
    assert (Hother : forall hst, hrel st hst -> slot_ok (Some b) -> slot_ok (Some b') ->
      (forall x x', hget hst h = Some x -> hget hst h' = Some x' ->
         match x, x' with Holds t _, Holds t' _ => t <> t' | Lost, Lost => False | _, _ => True end) ->
      exists hst', acts G hst (XStep (MAppend h h')) (Some (XAns (RObs (OBool false)))) hst' /\
                   hrel (CState (c_store st) (c_world st)) hst').
    { intros hst HRel _ _ Hx. destruct (hrel_get _ _ _ _ HRel Hg) as (x & E & _).
      destruct (hrel_get _ _ _ _ HRel Hg') as (x' & E' & _).
      exists hst. split; [|exact HRel]. apply (A_append_other G hst h h' x x'); auto. now apply Hx. }
    destruct (slot_ok_get st leak h b HI Hg) as [(t & xs & HR & Hc)|HP];
      destruct (slot_ok_get st leak h' b' HI Hg') as [(t' & ys & HR' & Hc')|HP'].
    + unfold vc_append, vc_element_type_id. rewrite (rep_type G _ _ _ HR), (rep_type G _ _ _ HR').
      assert (Hh : forall hst, hrel st hst ->
        hget hst h = Some (Holds t xs) /\ hget hst h' = Some (Holds t' ys)).
      { intros hst HRel. split; (eapply hrel_holds; [exact HRel|eassumption|now split]). }
      destruct (t' =? t) eqn:Et.
      * apply N.eqb_eq in Et as ->.
        pose proof (vv_append_rep P G HG t _ _ xs ys (c_world st) _ HR HR' HO1) as HA.
        inversion HA as [d d2 w' Ha Hb Hx1 Hx2 Hx3 HOa Hta HE
                        |w' Hx1 Hx2 HOa Hta HE|d2 w' i Hx1 Hb Hx2 Hx3 HOa Hta HE]; cbn [obind].
        -- apply SA_ret.
           ++ apply (Hback w' (VecCopy d (vc_vtable b)) (VecCopy d2 (vc_vtable b')) []); [left|left|].
              ** exists t, (xs ++ ys). now split.
              ** exists t, []. now split.
              ** exact HOa.
           ++ intros hst HRel. destruct (Hh hst HRel) as [E E'].
              eexists. split; [apply (A_append G hst h h' t xs ys E E' Hne)|].
              unfold hrel. cbn [c_store]. apply Forall2_set; [apply Forall2_set; [exact HRel|]|]; now split.
        -- apply (SA_panic _ _ _ _ _ []).
           ++ apply (Hback w' (VecCopy vv_default (vc_vtable b)) (VecCopy vv_default (vc_vtable b')) []);
                [right; apply vv_default_poisoned|right; apply vv_default_poisoned|exact HOa].
           ++ intros hst HRel. destruct (Hh hst HRel) as [E E'].
              eexists. split; [apply (A_append_panics G hst h h' t xs ys Lost E E' Hne)|].
              { left. split; [|reflexivity]. rewrite lenN_app in Hx1, Hx2.
                pose proof (wf_align_pos G t HG). pose proof (rep_sized _ _ _ _ HR).
                eapply (no_room_of G HG t _ xs _ (t_align (G t)) HR);
                  [lia|now apply (align_le_size G HG)|exact Hx1|exact Hx2]. }
              unfold hrel. cbn [c_store].
              apply Forall2_set; [apply Forall2_set; [exact HRel|]|]; apply vv_default_poisoned.
        -- apply (SA_panic _ _ _ _ _ [(i, (8, 1))]).
           ++ apply (Hback w' (VecCopy vv_default (vc_vtable b)) (VecCopy d2 (vc_vtable b')) [(i, (8, 1))]);
                [right; apply vv_default_poisoned|left; exists t, []; now split|].
              eapply Owns_perm; [|exact HOa]. cbn [vc_data]. change (vv_own vv_default) with (@nil block).
              cbn [app]. apply (Permutation_middle (vv_own d2 ++ rest) leak (i, (8, 1))) ||
                (rewrite !app_assoc; change ((i, (8, 1)) :: leak) with ([(i, (8, 1))] ++ leak);
                 apply Permutation_cons_app; reflexivity).
           ++ intros hst HRel. destruct (Hh hst HRel) as [E E'].
              eexists. split; [apply (A_append_panics G hst h h' t xs ys (Holds t []) E E' Hne)|].
              { right. split; [|reflexivity]. rewrite lenN_app in Hx1. now apply (odd_of G t _ xs _ HR). }
              unfold hrel. cbn [c_store].
              apply Forall2_set; [apply Forall2_set; [exact HRel|apply vv_default_poisoned]|]. now split.
      * cbn [obind]. rewrite Hsame. apply SA_ret.
        -- apply (Hback (c_world st) b b' []) in HO1; cbn [app] in HO1.
           ++ rewrite Hsame in HO1. exact HO1.
           ++ left. exists t, xs. now split.
           ++ left. exists t', ys. now split.
        -- intros hst HRel. destruct (Hh hst HRel) as [E E']. apply Hother; auto.
           ++ left. exists t, xs. now split.
           ++ left. exists t', ys. now split.
           ++ intros x x'. rewrite E, E'. intros [= <-] [= <-]. apply N.eqb_neq in Et. congruence.
    + unfold vc_append, vc_element_type_id. rewrite (rep_type G _ _ _ HR), (po_elem _ HP'). cbn [e_type_id].
      destruct (unit_id =? t) eqn:Et.
      { apply N.eqb_eq in Et. subst t. now elim (rep_not_unit G HG _ _ _ HR). }
      cbn [obind]. rewrite Hsame.
      assert (Hs : slot_ok (Some b)) by (left; exists t, xs; now split).
      apply SA_ret.
      * apply (Hback (c_world st) b b' []) in HO1; cbn [app] in HO1.
        -- rewrite Hsame in HO1. exact HO1.
        -- exact Hs.
        -- now right.
      * intros hst HRel. apply Hother; auto; [now right|]. intros x x'.
        rewrite (hrel_holds st hst h b t xs HRel Hg) by now split. rewrite (hrel_lost st hst h' b' HRel Hg' HP').
        now intros [= <-] [= <-].
    + unfold vc_append, vc_element_type_id. rewrite (rep_type G _ _ _ HR'), (po_elem _ HP). cbn [e_type_id].
      destruct (t' =? unit_id) eqn:Et.
      { apply N.eqb_eq in Et. subst t'. now elim (rep_not_unit G HG _ _ _ HR'). }
      cbn [obind]. rewrite Hsame.
      assert (Hs : slot_ok (Some b')) by (left; exists t', ys; now split).
      apply SA_ret.
      * apply (Hback (c_world st) b b' []) in HO1; cbn [app] in HO1.
        -- rewrite Hsame in HO1. exact HO1.
        -- now right.
        -- exact Hs.
      * intros hst HRel. apply Hother; auto; [now right|]. intros x x'.
        rewrite (hrel_holds st hst h' b' t' ys HRel Hg') by now split. rewrite (hrel_lost st hst h b HRel Hg HP).
        now intros [= <-] [= <-].
    + rewrite (veccopy_eta b), (veccopy_eta b'), (poisoned_shape _ HP), (poisoned_shape _ HP').
      destruct (vc_append_pois P (vv_len (vc_data b)) (vv_cap (vc_data b)) (vv_len (vc_data b'))
                  (vv_cap (vc_data b')) (vc_vtable b) (vc_vtable b') (c_world st)) as [p ->].
      cbn [obind]. apply (SA_panic _ _ _ _ _ []).
      * rewrite (vv_own_poisoned _ HP), (vv_own_poisoned _ HP') in HO1.
        apply (Hback (c_world st) (VecCopy vv_default (vc_vtable b)) (VecCopy vv_default (vc_vtable b')) []);
          [right; apply vv_default_poisoned|right; apply vv_default_poisoned|exact HO1].
      * intros hst HRel. pose proof (hrel_lost st hst h b HRel Hg HP) as E.
        pose proof (hrel_lost st hst h' b' HRel Hg' HP') as E'. exists hst. split; [now apply A_append_lost|].
        apply hget_some in E. apply hget_some in E'.
        rewrite <- (list_set_same hst h' _ E'). rewrite <- (list_set_same hst h _ E) at 1.
        unfold hrel. cbn [c_store].
        apply Forall2_set; [apply Forall2_set; [exact HRel|]|]; apply vv_default_poisoned.
  - (* MCall *)
    destruct (get st h) as [b|] eqn:Hg.
    2:{ apply step_invalid; [exact HI|]. intros hst HR. now apply (hrel_none st hst h HR Hg). }
    destruct (inv_out0 st leak h b HI Hg) as (rest & HO1 & Hback & Hback').
    destruct (slot_ok_get st leak h b HI Hg) as [(t & xs & HR & Hc)|HP].
    + assert (Hh : forall hst, hrel st hst -> hget hst h = Some (Holds t xs)).
      { intros hst HRel. eapply hrel_holds; [exact HRel|exact Hg|now split]. }
      rewrite (veccopy_eta b) in Hin |- *.
      pose proof (run_call_rep P G HG build c t (vc_data b) (vc_vtable b) xs (c_world st) _ HR Hc HO1 Hty Hin) as HC.
      inversion HC as [a ys b' w' Hl HR' Hv HO' HE|p w' Hw HO' HE
                      |p hint vals t1 v1 more b' w' He Hst Hne HR' HO' HE
                      |p b' w' lk Hw HP' HO' HE]; cbn [obind].
      * apply SA_ret.
        -- apply Hback; [|exact HO']. left. exists t, ys. now split.
        -- intros hst HRel. eexists. split; [apply (A_call G hst h c t xs a ys); auto|].
           apply hrel_set; [exact HRel|now split].
      * apply (SA_panic _ _ _ _ _ []).
        -- apply Hback; [|exact HO']. left. exists t, xs. now split.
        -- intros hst HRel. exists hst. split; [apply (A_call_kept G hst h c t xs); auto|].
           pose proof (Hh hst HRel) as E. apply hget_some in E. rewrite <- (list_set_same hst h _ E).
           apply hrel_set; [exact HRel|now split].
      * apply (SA_panic _ _ _ _ _ []).
        -- apply Hback; [|exact HO']. left. eexists t, _. split; eassumption.
        -- intros hst HRel. eexists. rewrite He. split.
           ++ apply (A_extend_part G hst h hint t xs vals t1 v1 more); auto.
              apply Forall_forall. intros q Hq. unfold same_type in Hst. rewrite forallb_forall in Hst.
              now apply N.eqb_eq, Hst.
           ++ apply hrel_set; [exact HRel|now split].
      * apply (SA_panic _ _ _ _ _ lk).
        -- apply Hback'; [now right|].
           eapply Owns_perm; [|exact HO']. cbn [slot_blocks]. rewrite buf_block_own, vv_own_poisoned by exact HP'.
           cbn [app]. apply Permutation_app_swap_app.
        -- intros hst HRel. eexists. split; [apply (A_call_lost G hst h c t xs); auto|].
           apply hrel_set; [exact HRel|exact HP'].
    + rewrite vv_own_poisoned in HO1 by exact HP.
      assert (Hh : forall hst n k w', hrel st hst -> hget hst h = Some Lost /\
        hrel (CState (list_set (c_store st) h (Some (VecCopy (pois_vec n k) (vc_vtable b)))) w') hst).
      { intros hst n k w' HRel. pose proof (hrel_lost st hst h b HRel Hg HP) as E. split; [exact E|].
        apply hget_some in E. rewrite <- (list_set_same hst h _ E).
        apply hrel_set; [exact HRel|apply pois_vec_poisoned]. }
      rewrite (veccopy_eta b), (poisoned_shape _ HP) in Hin |- *.
      pose proof (vc_call_pois P G HG build c _ _ (vc_vtable b) (c_world st) Hty Hin) as HC.
      inversion HC as [o n k w' Hs HO' HE]. destruct o as [a|p|u|]; try contradiction; cbn [obind].
      * apply SA_ret.
        -- apply Hback; [right; apply pois_vec_poisoned|]. cbn [slot_blocks]. apply HO'. exact HO1.
        -- intros hst HRel. exists hst. destruct (Hh hst n k w' HRel) as [E HR']. split; [|exact HR'].
           now apply A_call_on_lost.
      * apply (SA_panic _ _ _ _ _ []).
        -- apply Hback; [right; apply pois_vec_poisoned|]. cbn [slot_blocks]. apply HO'. exact HO1.
        -- intros hst HRel. exists hst. destruct (Hh hst n k w' HRel) as [E HR']. split; [|exact HR'].
           now apply A_call_on_lost.
Qed.

(** The same for programs none of whose calls panics. *)
Inductive step_post (s : step) (st : cstate (V := V)) (leak : list block)
  : outcome report * cstate (V := V) -> Prop :=
| SP_ret r st' :
    inv st' leak ->
    (forall lst, rel st lst ->
       exists lst', list_step G s lst = Some (r, lst') /\ rel st' lst') ->
    step_post s st leak (Ret r, st')
| SP_panic p st' leak' :
    inv st' (leak' ++ leak) -> step_post s st leak (Panic p, st').

Lemma run_step_post s st leak :
  inv st leak -> step_typed G s -> step_in_range P G s st ->
  step_post s st leak (run_step P G build s st).
Proof.
  intros HI Hty Hin. destruct (run_step_acts s st leak HI Hty Hin) as [r st' HI' HA|p st' leak' HI' HA].
  - apply SP_ret; [exact HI'|]. intros lst HR. destruct (HA _ (hlift_rel _ _ HR)) as (hst' & Ha & HR').
    destruct (acts_returns _ _ _ _ Ha) as (lst' & -> & HL). exists lst'. split; [exact HL|now apply hlift_unrel].
  - now apply (SP_panic _ _ _ _ _ leak').
Qed.

End Machine.
