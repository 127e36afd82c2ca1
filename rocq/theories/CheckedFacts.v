(** * CheckedFacts: C03, C04 and C05 for builds with debug assertions and overflow checks, where no
    restriction on indices is needed. *)

From Verif Require Export UpcastFacts.

(** The build has debug assertions and overflow checks (cargo's dev and test profiles). *)
Definition checked (P : profile) : Prop := debug_assertions P = true /\ overflow_checks P = true.

(** The step does not [push] a reference to a zero-sized value. *)
Definition no_zero_sized_push (G : tenv) (s : step) : Prop :=
  match s with MCall _ (SPush t _) => t_size (G t) <> 0 | _ => True end.

Section Checked.
Context {V : Type} (P : profile) (G : tenv) (HG : wf_tenv G) (build : tyid -> V) (HP : checked P).

Lemma checked_in_range c (b : veccopy V) :
  (forall t v, c = SPush t v -> t_size (G t) <> 0 \/ vc_element_size b <> 0) -> call_in_range P G c b.
Proof.
  destruct HP as [Hd Ho]. intros Hp.
  destruct c; cbn [call_in_range]; unfold fits; auto. apply (Hp t v eq_refl).
Qed.

Lemma checked_prog prog : forall st : cstate (V := V),
  Forall (no_zero_sized_push G) prog -> in_range P G build prog st.
Proof.
  induction prog as [|s prog IH]; intros st HF; cbn [in_range]; [exact I|].
  inversion HF as [|? ? Hs HF']; subst. split; [|now apply IH].
  destruct s as [c|h|h|h|h t|h h'|h c]; cbn [step_in_range]; auto. destruct (get st h) as [b|]; [|exact I].
  apply checked_in_range. intros t v ->. left. exact Hs.
Qed.

Lemma checked_ret prog : forall (st : cstate (V := V)) leak lst rs st',
  inv G st leak -> rel G st lst -> Forall (step_typed G) prog ->
  run P G build prog st = (map Ret rs, st') -> in_range P G build prog st.
Proof.
  induction prog as [|s prog IH]; intros st leak lst rs st' HI HR HF HE; cbn [in_range]; [exact I|].
  inversion HF as [|? ? Hs HF']; subst.
  assert (Hin : step_in_range P G s st).
  { destruct s as [c|h|h|h|h t|h h'|h c]; cbn [step_in_range]; auto.
    destruct (get st h) as [b|] eqn:Eg; [|exact I].
    apply checked_in_range. intros t v _. right.
    destruct (rel_get G st lst h b HR Eg) as (t0 & xs & _ & [Hh _]).
    destruct b as [d vt]. cbn [vc_data] in *. rewrite (vc_size_rep G HG _ _ _ _ Hh). apply Hh. }
  split; [exact Hin|].
  pose proof (run_step_post P G HG build s st leak HI Hs Hin) as HS.
  cbn [run] in HE. destruct (run_step P G build s st) as [o st1] eqn:Er. cbn [snd].
  inversion HS as [r st2 HI' HL|p st2 leak' HI']; subst.
  - destruct (HL lst HR) as (lst' & _ & HR').
    destruct (run P G build prog st1) as [rs1 st3] eqn:E1.
    destruct rs as [|r0 rs]; [discriminate|]. cbn [map] in HE. injection HE as _ -> ->.
    eapply IH; eauto.
  - destruct (run P G build prog st1) as [rs1 st3] eqn:E1.
    destruct rs as [|r0 rs]; discriminate.
Qed.
End Checked.

Lemma c03_list_refinement_checked_partial_fact :
  forall (V : Type) (P : profile) (G : tenv) (build : tyid -> V), wf_tenv G -> checked P ->
  forall prog rs st,
  Forall (step_typed G) prog ->
  run P G build prog c_init = (map Ret rs, st) ->
  exists lst,
    list_run G prog [] = Some (rs, lst) /\
    List.length lst = List.length (c_store st) /\
    forall h,
      match nth_error lst h with
      | Some (Some (t, xs)) =>
          exists b, get st h = Some b /\ shows G b t xs /\
                    vc_element_type_id b = t /\ vc_len b = lenN xs
      | _ => get st h = None
      end.
Proof.
  intros V P G build HG HP prog rs st Hty HE.
  apply (c03_list_refinement_partial_fact V P G build HG prog rs st Hty); [|exact HE].
  apply (checked_ret P G HG build HP prog c_init [] [] rs st); auto; [apply inv_init|constructor].
Qed.

Lemma c05_no_undefined_behaviour_checked_partial_fact :
  forall (V : Type) (P : profile) (G : tenv) (build : tyid -> V), wf_tenv G -> checked P ->
  forall prog,
  Forall (step_typed G) prog -> Forall (no_zero_sized_push G) prog ->
  List.length (fst (run P G build prog c_init)) = List.length prog /\
  Forall (fun o => is_ret o \/ is_panic o) (fst (run P G build prog c_init)).
Proof.
  intros V P G build HG HP prog Hty Hz. apply c05_no_undefined_behaviour_partial_fact; auto.
  now apply checked_prog.
Qed.
