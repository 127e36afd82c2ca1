(** * PropertiesSig: the properties of the attribute [dync_trait_method].

    Every theorem is closed by a lemma proved in another file.  The words used in the statements are
    defined in DeriveSigSpec.v ([mentions], [composite], [made_of], [direct], [self_bytes],
    [param_object], [byte_form] ...). *)

From Verif Require Import Base Derive DeriveSig DeriveSigSpec DeriveSigFacts.
Local Open Scope string_scope.
Local Open Scope list_scope.

(** ** C51 Method signature translation *)

(** The test is the wrong way round: [[Self; n]] is accepted and [[u8; n]] is rejected. *)
@@ c51_refuted
(** Behind a reference nothing is checked: [&[Self]] and [&Vec<Self>] pass as they are. *)
@@ c51_hidden_self_refuted
Example c51_hidden_self_ex :
  mentions "Self" (YSlice (yname "Self")) /\ composite (YSlice (yname "Self")).
Proof. split; [exists [], []; constructor; constructor|exact I]. Qed.

(** What is accepted, exactly. *)
@@ c51_composite_partial
(** [(Self, fn(Self) -> std::io::Result<u8>)]. *)
Definition tuple_ex : sty :=
  YTuple [yname "Self";
          YBareFn [yname "Self"] (Some (YPath None false [("std", []); ("io", []); ("Result", [yname "u8"])]))].
Example c51_composite_ex : composite tuple_ex /\ type_to_bytes tuple_ex = Ret tuple_ex.
Proof. split; [exact I|reflexivity]. Qed.

(** Every composite type with a plain name other than [Self] in it is rejected; those made of
    nothing but [Self] are accepted. *)
@@ c51_plain_names_partial
Example c51_plain_names_ex :
  composite (YTuple [yname "Self"; yname "f32"]) /\ made_of (yname "f32") (YTuple [yname "Self"; yname "f32"]) /\
  composite (YTuple [yname "Self"; YSlice (yname "Self")]) /\
  forall q lead segs, made_of (YPath q lead segs) (YTuple [yname "Self"; YSlice (yname "Self")]) ->
    YPath q lead segs = yname "Self".
Proof.
  split; [exact I|]. split; [apply (made_tuple _ _ (yname "f32")); [right; left; reflexivity|constructor]|].
  split; [exact I|]. intros q lead segs H. inversion H as [| | | | | | | | |? e Hi He]; subst.
  destruct Hi as [<-|[<-|[]]].
  - inversion He. reflexivity.
  - inversion He as [| | | | | | | |? He'|]; subst. inversion He'. reflexivity.
Qed.

(** Outside composite types the translation is right. *)
@@ c51_direct_partial
Example c51_direct_ex :
  self_bytes (YParen (YRef true (yname "Self"))) (YParen (YRef true y_bytes)) /\
  direct (YPath None false [("Vec", [yname "u8"])]) (YRef false (YPath None false [("Vec", [yname "u8"])])).
Proof. split; [constructor; constructor|apply (direct_ref _ _ false [("Vec", [yname "u8"])]); reflexivity]. Qed.

(** ** C68 Translated signatures keep the call shape *)

@@ c68_shape
(** [fn pick<T: Clone>(&mut self, other: &Self, by: T, n: usize) -> Self]. *)
Definition clone_b : list bound := [BTrait false false (plain_path ["Clone"])].
Definition sig_ex : signature :=
  Sig false false false false "pick" [GType false "T" true clone_b false] []
    [AReceiver true true; ATyped "other" (YRef false (yname "Self")); ATyped "by" (yname "T");
     ATyped "n" (yname "usize")] false (Some (yname "Self")).
Definition ins_ex : list fn_arg :=
  [ATyped "_self_" (YRef true y_bytes); ATyped "other" (YRef false y_bytes);
   ATyped "by" (y_box (YObject clone_b)); ATyped "n" (yname "usize")].
Example c68_shape_ex :
  dync_fn_sig sig_ex = Ret (Sig false false true false "pick_bytes" [] [] ins_ex false (Some (y_box y_bytes))).
Proof. reflexivity. Qed.

(** A parameter bounded in a where clause, [where T: ..], is always rejected. *)
@@ c68_where_refuted
Example c68_where_ex :
  In (WType false (yname "T") clone_b)
     (sg_where (Sig false false false false "f" [GType false "T" true [] false]
                  [WType false (yname "T") clone_b] [ATyped "x" (yname "T")] false None)).
Proof. left. reflexivity. Qed.

(** A parameter inside another type stays, although it is no longer declared: [x: Vec<T>]. *)
@@ c68_generic_left_refuted
Example c68_generic_left_ex : "T" <> "Vec".
Proof. discriminate. Qed.

(** The supported signatures are accepted, with the byte form of every type. *)
@@ c68_simple_partial
@@ c68_closed_partial
Example c68_simple_ex :
  ordinary sig_ex /\ simple_params sig_ex /\ (forall b, ~ declares sig_ex "Self" b) /\ declares sig_ex "T" clone_b /\
  Forall2 (byte_arg sig_ex) (sg_inputs sig_ex) ins_ex /\
  byte_output sig_ex (sg_output sig_ex) (Some (y_box y_bytes)).
Proof.
  split; [repeat split|]. split.
  { split; [repeat constructor; cbn; tauto|]. split; [|reflexivity].
    intros p [<-|[]]. exists "T", clone_b. split; [reflexivity|]. exists false, false, (plain_path ["Clone"]). now left. }
  split; [intros b [H|[]]; discriminate H|]. split; [now left|]. split.
  - constructor; [constructor|]. constructor; [constructor; apply bf_self; constructor|].
    constructor; [constructor|constructor; [constructor|constructor]].
    + apply (bf_param _ "T" clone_b); [now left|constructor].
    + apply (bf_same _ (yname "usize")); [eapply direct_path; reflexivity| |].
      * intros (a & r & HP). unfold yname in HP. inversion HP; subst.
        match goal with HI : In _ [_] |- _ => destruct HI as [HI|[]]; injection HI as <- <- end.
        match goal with HI : In _ [] |- _ => destruct HI end.
      * intros s b [[= <- <-]|[]] (a & r & HP). unfold yname in HP. inversion HP; subst.
        match goal with HI : In _ [_] |- _ => destruct HI as [HI|[]]; injection HI as <- <- end.
        match goal with HI : In _ [] |- _ => destruct HI end.
  - constructor. apply bf_self. constructor.
Qed.

(** ** C79 The translated signature parses *)

(** [fn f<T: A + B>(&self, x: &T)] is accepted and becomes [.., x: &dyn A + B], which is not a type. *)
@@ c79_refuted
Definition two_b : list bound := [BTrait false false (plain_path ["A"]); BTrait false false (plain_path ["B"])].
Example c79_refuted_ex : has_trait_bound two_b /\ (2 <= List.length two_b)%nat.
Proof. split; [exists false, false, (plain_path ["A"]); now left|cbn; lia]. Qed.

(** With at most one bound per parameter, every type written in the result can be read back. *)
@@ c79_single_partial
Example c79_single_ex :
  (forall s b, declares sig_ex s b -> (List.length b <= 1)%nat) /\ sg_where sig_ex = [] /\
  (forall t, written_in t sig_ex -> t = YRef false (yname "Self") \/ exists s, t = yname s) /\
  exists sg', dync_fn_sig sig_ex = Ret sg'.
Proof.
  split; [intros s b [H|[]]; injection H as <- <-; cbn; lia|]. split; [reflexivity|]. split.
  - intros t [[x Hx]|Ho].
    + cbn in Hx. destruct Hx as [H|[H|[H|[H|[]]]]]; try discriminate H; injection H as _ <-; eauto.
    + injection Ho as <-. eauto.
  - eexists. reflexivity.
Qed.
