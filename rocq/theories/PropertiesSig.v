(** * PropertiesSig: the properties of the attribute [dync_trait_method].

    Every theorem is closed by a lemma proved in another file.  The words used in the statements are
    defined in DeriveSigSpec.v ([mentions], [composite], [made_of], [direct], [self_bytes],
    [param_object], [byte_form] ...). *)

From Verif Require Import Base Derive DeriveSig DeriveSigSpec DeriveSigFacts.
Local Open Scope string_scope.
Local Open Scope list_scope.

(** ** C51 Method signature translation *)

(** The test is the wrong way round: [[Self; n]] is accepted and [[u8; n]] is rejected. *)
Theorem c51_refuted :
  (exists t, composite t /\ mentions "Self" t /\ type_to_bytes t = Ret t) /\
  (exists t why, composite t /\ ~ mentions "Self" t /\ type_to_bytes t = Panic why).
Proof. exact c51_refuted_fact. Qed.
Print Assumptions c51_refuted.
(** Behind a reference nothing is checked: [&[Self]] and [&Vec<Self>] pass as they are. *)
Theorem c51_hidden_self_refuted :
  forall t, mentions "Self" t -> composite t \/ (exists n, t = YPath None false [(n, [yname "Self"])]) ->
    forall m, type_to_bytes (YRef m t) = Ret (YRef m t) /\ mentions "Self" (YRef m t).
Proof. exact c51_hidden_self_refuted_fact. Qed.
Print Assumptions c51_hidden_self_refuted.
Example c51_hidden_self_ex :
  mentions "Self" (YSlice (yname "Self")) /\ composite (YSlice (yname "Self")).
Proof. split; [exists [], []; constructor; constructor|exact I]. Qed.

(** What is accepted, exactly. *)
Theorem c51_composite_partial :
  forall t : sty, composite t ->
    (forall t', type_to_bytes t = Ret t' -> t' = t) /\
    (type_to_bytes t = Ret t <->
     forall q lead segs, made_of (YPath q lead segs) t ->
       q = None /\ (forall s args, lead = false -> segs = [(s, args)] -> s = "Self" /\ args = [])) /\
    (forall g x a, fn_arg_bytes g (ATyped x t) = Ret a <-> a = ATyped x t /\ type_to_bytes t = Ret t).
Proof. exact c51_composite_partial_fact. Qed.
Print Assumptions c51_composite_partial.
(** [(Self, fn(Self) -> std::io::Result<u8>)]. *)
Definition tuple_ex : sty :=
  YTuple [yname "Self";
          YBareFn [yname "Self"] (Some (YPath None false [("std", []); ("io", []); ("Result", [yname "u8"])]))].
Example c51_composite_ex : composite tuple_ex /\ type_to_bytes tuple_ex = Ret tuple_ex.
Proof. split; [exact I|reflexivity]. Qed.

(** Every composite type with a plain name other than [Self] in it is rejected; those made of
    nothing but [Self] are accepted. *)
Theorem c51_plain_names_partial :
  forall t : sty, composite t ->
    (forall s, s <> "Self" -> made_of (yname s) t -> exists why, type_to_bytes t = Panic why) /\
    ((forall q lead segs, made_of (YPath q lead segs) t -> YPath q lead segs = yname "Self") ->
     type_to_bytes t = Ret t).
Proof. exact c51_plain_names_partial_fact. Qed.
Print Assumptions c51_plain_names_partial.
Example c51_plain_names_ex :
  composite (YTuple [yname "Self"; yname "f32"]) /\ made_of (yname "f32") (YTuple [yname "Self"; yname "f32"]) /\
  composite (YTuple [yname "Self"; YSlice (yname "Self")]) /\
  forall q lead segs, made_of (YPath q lead segs) (YTuple [yname "Self"; YSlice (yname "Self")]) ->
    YPath q lead segs = yname "Self".
Proof.
  split; [exact I|]. split; [apply (made_tuple _ _ (yname "f32")); [right; left; reflexivity|constructor]|].
  split; [exact I|]. intros q lead segs H. inversion H as [| | | | | | | | |? e Hi He]; subst.
  destruct Hi as [<-|[<-|[]]].
  - inversion He. reflexivity.
  - inversion He as [| | | | | | | |? He'|]; subst. inversion He'. reflexivity.
Qed.

(** Outside composite types the translation is right. *)
Theorem c51_direct_partial :
  (forall t t', self_bytes t t' -> type_to_bytes t = Ret t' /\ ~ mentions "Self" t') /\
  (forall p t, direct p t -> ~ mentions "Self" t -> type_to_bytes t = Ret t).
Proof. exact c51_direct_partial_fact. Qed.
Print Assumptions c51_direct_partial.
Example c51_direct_ex :
  self_bytes (YParen (YRef true (yname "Self"))) (YParen (YRef true y_bytes)) /\
  direct (YPath None false [("Vec", [yname "u8"])]) (YRef false (YPath None false [("Vec", [yname "u8"])])).
Proof. split; [constructor; constructor|apply (direct_ref _ _ false [("Vec", [yname "u8"])]); reflexivity]. Qed.

(** ** C68 Translated signatures keep the call shape *)

Theorem c68_shape :
  forall sg sg', dync_fn_sig sg = Ret sg' ->
    ordinary sg /\ ordinary sg' /\ sg_unsafe sg' = true /\ sg_ident sg' = String.append (sg_ident sg) "_bytes" /\
    sg_params sg' = [] /\ sg_where sg' = [] /\
    (forall p, In p (sg_params sg) -> exists s b, p = GType false s true b false) /\
    (forall p, In p (sg_where sg) -> p = WEq \/ exists t b, p = WType false t b) /\
    (sg_output sg = None -> sg_output sg' = Some (YTuple [])) /\ sg_output sg' <> None /\
    Forall2 (fun a a' =>
      match a with
      | AReceiver true m => a' = ATyped "_self_" (YRef m y_bytes)
      | AReceiver false m => m = false /\ a' = ATyped "_self_" (y_box y_bytes)
      | ATyped x t => exists t', a' = ATyped x t'
      end) (sg_inputs sg) (sg_inputs sg').
Proof. exact c68_shape_fact. Qed.
Print Assumptions c68_shape.
(** [fn pick<T: Clone>(&mut self, other: &Self, by: T, n: usize) -> Self]. *)
Definition clone_b : list bound := [BTrait false false (plain_path ["Clone"])].
Definition sig_ex : signature :=
  Sig false false false false "pick" [GType false "T" true clone_b false] []
    [AReceiver true true; ATyped "other" (YRef false (yname "Self")); ATyped "by" (yname "T");
     ATyped "n" (yname "usize")] false (Some (yname "Self")).
Definition ins_ex : list fn_arg :=
  [ATyped "_self_" (YRef true y_bytes); ATyped "other" (YRef false y_bytes);
   ATyped "by" (y_box (YObject clone_b)); ATyped "n" (yname "usize")].
Example c68_shape_ex :
  dync_fn_sig sig_ex = Ret (Sig false false true false "pick_bytes" [] [] ins_ex false (Some (y_box y_bytes))).
Proof. reflexivity. Qed.

(** A parameter bounded in a where clause, [where T: ..], is always rejected. *)
Theorem c68_where_refuted :
  forall sg s b, (In (WType false (yname s) b) (sg_where sg) \/ In (WType true (yname s) b) (sg_where sg)) ->
    exists why, dync_fn_sig sg = Panic why.
Proof. exact c68_where_refuted_fact. Qed.
Print Assumptions c68_where_refuted.
Example c68_where_ex :
  In (WType false (yname "T") clone_b)
     (sg_where (Sig false false false false "f" [GType false "T" true [] false]
                  [WType false (yname "T") clone_b] [ATyped "x" (yname "T")] false None)).
Proof. left. reflexivity. Qed.

(** A parameter inside another type stays, although it is no longer declared: [x: Vec<T>]. *)
Theorem c68_generic_left_refuted :
  forall n b, n <> "Vec" ->
  let sg := Sig false false false false "f" [GType false n true b false] []
                [AReceiver true false; ATyped "x" (YPath None false [("Vec", [yname n])])] false None in
  exists ins, dync_fn_sig sg = Ret (Sig false false true false "f_bytes" [] [] ins false (Some (YTuple []))) /\
    exists t, In (ATyped "x" t) ins /\ mentions n t.
Proof. exact c68_generic_left_refuted_fact. Qed.
Print Assumptions c68_generic_left_refuted.
Example c68_generic_left_ex : "T" <> "Vec".
Proof. discriminate. Qed.

(** The supported signatures are accepted, with the byte form of every type. *)
Theorem c68_simple_partial :
  forall sg ins out,
    ordinary sg -> simple_params sg -> (forall b, ~ declares sg "Self" b) ->
    Forall2 (byte_arg sg) (sg_inputs sg) ins -> byte_output sg (sg_output sg) out ->
    dync_fn_sig sg = Ret (Sig false false true false (String.append (sg_ident sg) "_bytes") [] [] ins false out).
Proof. exact c68_simple_partial_fact. Qed.
Print Assumptions c68_simple_partial.
Theorem c68_closed_partial :
  forall sg ins out s t,
    Forall2 (byte_arg sg) (sg_inputs sg) ins -> byte_output sg (sg_output sg) out ->
    s = "Self" \/ (exists b, declares sg s b) -> s <> "std" -> s <> "u8" -> s <> "Box" ->
    (exists x, In (ATyped x t) ins) \/ out = Some t ->
    ~ mentions s t.
Proof. exact c68_closed_partial_fact. Qed.
Print Assumptions c68_closed_partial.
Example c68_simple_ex :
  ordinary sig_ex /\ simple_params sig_ex /\ (forall b, ~ declares sig_ex "Self" b) /\ declares sig_ex "T" clone_b /\
  Forall2 (byte_arg sig_ex) (sg_inputs sig_ex) ins_ex /\
  byte_output sig_ex (sg_output sig_ex) (Some (y_box y_bytes)).
Proof.
  split; [repeat split|]. split.
  { split; [repeat constructor; cbn; tauto|]. split; [|reflexivity].
    intros p [<-|[]]. exists "T", clone_b. split; [reflexivity|]. exists false, false, (plain_path ["Clone"]). now left. }
  split; [intros b [H|[]]; discriminate H|]. split; [now left|]. split.
  - constructor; [constructor|]. constructor; [constructor; apply bf_self; constructor|].
    constructor; [constructor|constructor; [constructor|constructor]].
    + apply (bf_param _ "T" clone_b); [now left|constructor].
    + apply (bf_same _ (yname "usize")); [eapply direct_path; reflexivity| |].
      * intros (a & r & HP). unfold yname in HP. inversion HP; subst.
        match goal with HI : In _ [_] |- _ => destruct HI as [HI|[]]; injection HI as <- <- end.
        match goal with HI : In _ [] |- _ => destruct HI end.
      * intros s b [[= <- <-]|[]] (a & r & HP). unfold yname in HP. inversion HP; subst.
        match goal with HI : In _ [_] |- _ => destruct HI as [HI|[]]; injection HI as <- <- end.
        match goal with HI : In _ [] |- _ => destruct HI end.
  - constructor. apply bf_self. constructor.
Qed.

(** ** C79 The translated signature parses *)

(** [fn f<T: A + B>(&self, x: &T)] is accepted and becomes [.., x: &dyn A + B], which is not a type. *)
Theorem c79_refuted :
  forall n b m, has_trait_bound b -> (2 <= List.length b)%nat ->
  let sg := Sig false false false false "f" [GType false n true b false] []
                [AReceiver true false; ATyped "x" (YRef m (yname n))] false None in
  (forall t, written_in t sg -> readable t) /\
  exists sg' t, dync_fn_sig sg = Ret sg' /\ written_in t sg' /\ t = YRef m (YObject b) /\ ~ readable t.
Proof. exact c79_refuted_fact. Qed.
Print Assumptions c79_refuted.
Definition two_b : list bound := [BTrait false false (plain_path ["A"]); BTrait false false (plain_path ["B"])].
Example c79_refuted_ex : has_trait_bound two_b /\ (2 <= List.length two_b)%nat.
Proof. split; [exists false, false, (plain_path ["A"]); now left|cbn; lia]. Qed.

(** With at most one bound per parameter, every type written in the result can be read back. *)
Theorem c79_single_partial :
  forall sg sg', dync_fn_sig sg = Ret sg' ->
    (forall s b, declares sg s b -> (List.length b <= 1)%nat) ->
    (forall t b, In (WType false t b) (sg_where sg) -> (List.length b <= 1)%nat) ->
    (forall t, written_in t sg -> readable t) ->
    forall t, written_in t sg' -> readable t.
Proof. exact c79_single_partial_fact. Qed.
Print Assumptions c79_single_partial.
Example c79_single_ex :
  (forall s b, declares sig_ex s b -> (List.length b <= 1)%nat) /\ sg_where sig_ex = [] /\
  (forall t, written_in t sig_ex -> t = YRef false (yname "Self") \/ exists s, t = yname s) /\
  exists sg', dync_fn_sig sig_ex = Ret sg'.
Proof.
  split; [intros s b [H|[]]; injection H as <- <-; cbn; lia|]. split; [reflexivity|]. split.
  - intros t [[x Hx]|Ho].
    + cbn in Hx. destruct Hx as [H|[H|[H|[H|[]]]]]; try discriminate H; injection H as _ <-; eauto.
    + injection Ho as <-. eauto.
  - eexists. reflexivity.
Qed.
