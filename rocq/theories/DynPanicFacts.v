(** * Programs over [VecDyn]s and owned values whose steps may panic: what lists say about them. *)

From Verif Require Export DynFacts.

Lemma c82_programs_fact :
  forall (V : Type) (T : FullTable V) (P : profile) (G : tenv), types_ok G ->
  forall prog rs st,
  Forall (dstep_typed G) prog -> dyn_in_range P G prog (d_init (V := V)) ->
  drun P G prog (d_init (V := V)) = (rs, st) ->
  exists lst, dacts_all G prog (LState [] []) (map step_report rs) lst /\ shows_objects G st lst.
Proof.
  intros V T P G [HG HC HQ] prog rs st Hty Hin HE.
  destruct (drun_inv P G HG HC HQ prog d_init [] (dinv_init (V := V) G) Hty Hin)
    as (leak & lost & _ & _ & _ & _ & _ & HF). rewrite HE in *. cbn [fst snd] in *.
  destruct (HF (LState [] [])) as (lst & HR & HS).
  { split; [constructor|reflexivity]. }
  exists lst. split; [exact HR|now apply drel_shows].
Qed.

(** ** What the specification says *)

Lemma nth_set_other {A} (l : list A) h k x : k <> h -> nth_error (list_set l k x) h = nth_error l h.
Proof.
  revert h k. induction l as [|a l IH]; intros [|h] [|k] Hne; cbn; try reflexivity; try congruence.
  apply IH. congruence.
Qed.

Lemma nth_set_here {A} (l : list A) h x : (h < List.length l)%nat -> nth_error (list_set l h x) h = Some x.
Proof.
  revert h. induction l as [|a l IH]; intros [|h] Hl; cbn in *; try lia; [reflexivity|]. apply IH. lia.
Qed.

Ltac split_matches :=
  repeat match goal with
         | H : context [match ?x with _ => _ end] |- _ => destruct x eqn:?; try discriminate; try contradiction
         end.

Lemma dyn_step_others G s st r st' h :
  dyn_step G s st = Some (r, st') -> (h < List.length (l_objs st))%nat -> ~ In h (names s) ->
  nth_error (l_objs st') h = nth_error (l_objs st) h.
Proof.
  intros HE Hh Hn.
  destruct s; cbn [dyn_step names] in *; unfold lnew_sized, lclone_val in HE;
  split_matches; unfold obs_, invalid in HE; try discriminate;
  injection HE as <- <-; cbn [lnew lset lset_trace lemit l_objs] in *;
  first [ reflexivity | now apply nth_error_app1
        | rewrite ?nth_set_other; [reflexivity|..]; intros ->; apply Hn; cbn; auto ].
Qed.

Ltac open_all :=
  repeat match goal with
         | H : _ /\ _ |- _ => destruct H
         | H : _ \/ _ |- _ => destruct H
         | H : exists _, _ |- _ => destruct H
         end.

Lemma step_leaves_others G s st st' h :
  step_leaves G s st st' -> ~ In h (names s) -> nth_error (l_objs st') h = nth_error (l_objs st) h.
Proof.
  intros HE Hn.
  destruct s; cbn [step_leaves names] in *; unfold clone_leaves in HE; try contradiction;
  split_matches; open_all; split_matches; open_all; subst;
  cbn [lnew lset lset_trace lemit l_objs] in *;
  first [ reflexivity
        | rewrite ?nth_set_other; [reflexivity|..]; intros ->; apply Hn; cbn; auto ].
Qed.

Lemma c82_other_objects_fact :
  forall (G : tenv) st s r st' h,
  dacts G st s r st' -> (h < List.length (l_objs st))%nat -> ~ In h (names s) ->
  nth_error (l_objs st') h = nth_error (l_objs st) h.
Proof.
  intros G st s r st' h HA Hh Hn. destruct HA as [r st' HE|st' HE|r st' _ HE _].
  - exact (dyn_step_others G s st r st' h HE Hh Hn).
  - exact (step_leaves_others G s st st' h HE Hn).
  - rewrite HE. destruct s; cbn [consume names] in *; try reflexivity; split_matches; try reflexivity;
      (destruct (lget st k) as [[? ?|[] ? ?|]|]; try reflexivity)
      || idtac; apply nth_set_other; intros ->; apply Hn; cbn; auto.
Qed.

(** A vector that lost its contents stays so until it is dropped or converted. *)
Lemma lget_same_objs st st' h : l_objs st' = l_objs st -> lget st' h = lget st h.
Proof. unfold lget. now intros ->. Qed.

Lemma lget_set_other st k o h : k <> h -> lget (lset st k o) h = lget st h.
Proof. intros Hne. unfold lget, lset. cbn [l_objs]. now rewrite nth_set_other. Qed.

Lemma lget_new st o h b : lget st h = Some b -> lget (lnew st o) h = Some b.
Proof.
  unfold lget, lnew. cbn [l_objs]. intros HE.
  destruct (nth_error (l_objs st) h) as [x|] eqn:En; [|discriminate].
  rewrite nth_error_app1; [now rewrite En|]. apply nth_error_Some. congruence.
Qed.

Lemma lget_lset_trace st tr h : lget (lset_trace st tr) h = lget st h.
Proof. reflexivity. Qed.
Lemma lget_lemit st es h : lget (lemit st es) h = lget st h.
Proof. reflexivity. Qed.

Ltac still_lost :=
  repeat first
    [ assumption
    | apply lget_new
    | rewrite lget_lemit
    | rewrite lget_lset_trace
    | rewrite lget_set_other by (intros ->; congruence) ].

Lemma dyn_step_lost G s st r st' h :
  dyn_step G s st = Some (r, st') -> lget st h = Some LLost -> lget st' h = Some LLost.
Proof.
  intros HE Hh.
  destruct s; cbn [dyn_step] in *; unfold lnew_sized, lclone_val in HE;
  split_matches; unfold obs_, invalid in HE; try discriminate;
  injection HE as <- <-; still_lost.
Qed.

Lemma step_leaves_lost G s st st' h :
  step_leaves G s st st' -> lget st h = Some LLost -> lget st' h = Some LLost.
Proof.
  intros HE Hh.
  destruct s; cbn [step_leaves] in *; unfold clone_leaves in HE; try contradiction;
  split_matches; open_all; split_matches; open_all; subst; still_lost.
Qed.

Lemma c82_lost_fact :
  forall (G : tenv) st s r st' h,
  dacts G st s r st' -> lget st h = Some LLost ->
  lget st' h = Some LLost \/ lget st' h = None /\ (s = DDrop h \/ exists t, s = DIntoVec h t).
Proof.
  intros G st s r st' h HA Hh. destruct HA as [r st' HE|st' HE|r st' _ HE _].
  - left. exact (dyn_step_lost G s st r st' h HE Hh).
  - left. exact (step_leaves_lost G s st st' h HE Hh).
  - assert (Hset : forall k, l_objs st' = list_set (l_objs st) k None ->
              k <> h /\ lget st' h = Some LLost \/ k = h /\ lget st' h = None).
    { intros k Ek. destruct (Nat.eq_dec k h) as [->|Hne].
      - right. split; [reflexivity|]. unfold lget in *. rewrite Ek.
        destruct (nth_error (l_objs st) h) as [x|] eqn:En; [|discriminate].
        rewrite nth_set_here; [reflexivity|]. apply nth_error_Some. congruence.
      - left. split; [exact Hne|]. unfold lget in *. rewrite Ek. now rewrite nth_set_other. }
    assert (Hsame : l_objs st' = l_objs st -> lget st' h = Some LLost).
    { intros Eo. now rewrite (lget_same_objs st st' h Eo). }
    destruct s; cbn [consume] in HE; try (left; exact (Hsame HE)).
    + destruct (Hset _ HE) as [[_ ?]|[-> ?]]; [now left|right; auto].
    + destruct (Hset _ HE) as [[_ ?]|[-> ?]]; [now left|right; eauto].
    + left. destruct (lget st k) as [[? ?|[] ? ?|]|] eqn:Ek; try exact (Hsame HE).
      destruct (Hset _ HE) as [[_ ?]|[-> ?]]; [assumption|congruence].
    + left. destruct (lget st k) as [[? ?|? ? ?|]|] eqn:Ek; try exact (Hsame HE).
      destruct (Hset _ HE) as [[_ ?]|[-> ?]]; [assumption|congruence].
Qed.

(** As long as no vector has lost its contents, a step that returns does what its meaning on lists
    says, and a step that panics leaves what [step_leaves] says. *)
Lemma c82_returns_fact :
  forall (G : tenv) st s r st',
  dacts G st s r st' -> ~ uses_lost st s ->
  match r with
  | Some o => dyn_step G s st = Some (o, st')
  | None => step_leaves G s st st'
  end.
Proof. intros G st s r st' [o st2 HE|st2 HE|o st2 HU _ _] Hn; [exact HE|exact HE|contradiction]. Qed.
