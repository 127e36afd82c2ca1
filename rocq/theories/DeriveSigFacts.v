(** * DeriveSigFacts: what [dync_trait_method] accepts and writes. *)

From Verif Require Export DeriveSigSpec.
From Verif Require Import Base Derive Reach.
Local Open Scope string_scope.
Local Open Scope list_scope.

(** Induction over types and the lists of types in them. *)
Section Ind.
Variable Q : sty -> Prop.
Hypothesis Harr : forall e, Q e -> Q (YArray e).
Hypothesis Hfn : forall ins out, Forall Q ins -> (forall o, out = Some o -> Q o) -> Q (YBareFn ins out).
Hypothesis Hgroup : forall e, Q e -> Q (YGroup e).
Hypothesis Himpl : forall b, Q (YImpl b).
Hypothesis Hparen : forall e, Q e -> Q (YParen e).
Hypothesis Hpath : forall q lead segs, Q (YPath q lead segs).
Hypothesis Hptr : forall m e, Q e -> Q (YPtr m e).
Hypothesis Href : forall m e, Q e -> Q (YRef m e).
Hypothesis Hslice : forall e, Q e -> Q (YSlice e).
Hypothesis Hobj : forall b, Q (YObject b).
Hypothesis Htup : forall es, Forall Q es -> Q (YTuple es).
Hypothesis Hother : Q YOther.
Fixpoint sty_ind' (t : sty) : Q t :=
  let fix all (l : list sty) : Forall Q l :=
    match l with [] => Forall_nil _ | x :: l' => Forall_cons _ (sty_ind' x) (all l') end in
  match t with
  | YArray e => Harr e (sty_ind' e)
  | YBareFn ins out =>
      Hfn ins out (all ins)
        (match out as o return (forall x, o = Some x -> Q x) with
         | Some o => fun x E => match E in (_ = y) return (match y with Some z => Q z | None => True end) with eq_refl => sty_ind' o end
         | None => fun x E => match E in (_ = y) return (match y with Some z => Q z | None => True end) with eq_refl => I end
         end)
  | YGroup e => Hgroup e (sty_ind' e)
  | YImpl b => Himpl b
  | YParen e => Hparen e (sty_ind' e)
  | YPath q lead segs => Hpath q lead segs
  | YPtr m e => Hptr m e (sty_ind' e)
  | YRef m e => Href m e (sty_ind' e)
  | YSlice e => Hslice e (sty_ind' e)
  | YObject b => Hobj b
  | YTuple es => Htup es (all es)
  | YOther => Hother
  end.
End Ind.

(** ** The check *)

(** What the check lets pass: paths that are not qualified and, if a single name, are [Self]. *)
Definition let_pass (p : sty) : Prop :=
  match p with
  | YPath q lead segs => q = None /\ forall s args, lead = false -> segs = [(s, args)] -> s = "Self" /\ args = []
  | _ => True
  end.

Fixpoint check_all (l : list sty) : outcome unit :=
  match l with
  | [] => Ret tt
  | x :: l' => let! _ := check_self x in check_all l'
  end.
Lemma check_tuple es : check_self (YTuple es) = check_all es.
Proof. cbn. induction es as [|x l IH]; [reflexivity|]. cbn. destruct (check_self x); cbn; auto. Qed.
Lemma check_fn ins out :
  check_self (YBareFn ins out) =
  (let! _ := check_all ins in match out with Some o => check_self o | None => Ret tt end).
Proof.
  cbn. match goal with |- obind ?a _ = obind ?b _ => assert (E : a = b) end.
  { induction ins as [|x l IH]; [reflexivity|]. cbn. destruct (check_self x); cbn; auto. }
  now rewrite E.
Qed.

Lemma check_panics t : check_self t = Ret tt \/ check_self t = Panic PAssert.
Proof.
  induction t using sty_ind'; try (now left); try assumption.
  - rewrite check_fn.
    assert (HA : check_all ins = Ret tt \/ check_all ins = Panic PAssert).
    { induction H as [|x l Hx Hl IH]; [now left|]. cbn. destruct Hx as [-> | ->]; cbn; auto. }
    destruct HA as [-> | ->]; cbn; [|now right]. destruct out as [o|]; [|now left]. now apply H0.
  - cbn. destruct q; cbn; [now right|]. unfold check_path.
    destruct lead; [now left|]. destruct segs as [|[s args] [|]]; try (now left).
    destruct args; unfold assert_; [destruct (s =? "Self")|]; auto.
  - rewrite check_tuple. induction H as [|x l Hx Hl IH]; [now left|]. cbn. destruct Hx as [-> | ->]; cbn; auto.
Qed.

Lemma check_all_ok l : check_all l = Ret tt <-> Forall (fun t => check_self t = Ret tt) l.
Proof.
  induction l as [|x l IH]; cbn; [split; auto|].
  destruct (check_panics x) as [E|E]; rewrite E; cbn; rewrite ?IH; split; intros H.
  - now constructor. - now inversion H. - discriminate. - inversion H; congruence.
Qed.

Lemma check_exact t : check_self t = Ret tt <-> forall q lead segs, made_of (YPath q lead segs) t -> let_pass (YPath q lead segs).
Proof.
  induction t using sty_ind'.
  - cbn [check_self]. rewrite IHt. split; intros HH q lead segs Hm.
    + inversion Hm; subst; auto. + apply HH. now constructor.
  - rewrite check_fn. destruct (check_all ins) eqn:EA; cbn.
    2-4: split; [discriminate|]; intros HH; exfalso.
    + destruct a. apply check_all_ok in EA. split.
      * intros Ho q lead segs Hm. inversion Hm; subst.
        -- rewrite Forall_forall in H, EA. match goal with Hi : In ?e ins |- _ => apply (proj1 (H e Hi)); auto end.
        -- apply (proj1 (H0 _ eq_refl)); auto.
      * intros HH. destruct out as [o|]; [|reflexivity]. apply H0; [reflexivity|].
        intros q lead segs Hm. apply HH. now apply made_output.
    + assert (check_all ins = Ret tt); [|congruence]. apply check_all_ok.
      rewrite Forall_forall in H |- *. intros x Hx. apply H; [exact Hx|]. intros q lead segs Hm. apply HH. now apply (made_input _ _ _ x).
    + assert (check_all ins = Ret tt); [|congruence]. apply check_all_ok.
      rewrite Forall_forall in H |- *. intros x Hx. apply H; [exact Hx|]. intros q lead segs Hm. apply HH. now apply (made_input _ _ _ x).
    + assert (check_all ins = Ret tt); [|congruence]. apply check_all_ok.
      rewrite Forall_forall in H |- *. intros x Hx. apply H; [exact Hx|]. intros q lead segs Hm. apply HH. now apply (made_input _ _ _ x).
  - cbn [check_self]. rewrite IHt. split; intros HH q lead segs Hm.
    + inversion Hm; subst; auto. + apply HH. now constructor.
  - split; [|reflexivity]. intros _ q lead segs Hm. inversion Hm.
  - cbn [check_self]. rewrite IHt. split; intros HH q lead segs Hm.
    + inversion Hm; subst; auto. + apply HH. now constructor.
  - split.
    + intros E q' lead' segs' Hm. inversion Hm; subst. cbn in E |- *. destruct q; [discriminate|]. split; [reflexivity|].
      intros s args -> ->. cbn in E. destruct args; [|discriminate]. unfold assert_ in E.
      destruct (String.eqb_spec s "Self"); [auto|discriminate].
    + intros HH. specialize (HH q lead segs (made_self _)). cbn in HH |- *. destruct HH as [-> HH]. cbn.
      unfold check_path. destruct lead; [reflexivity|]. destruct segs as [|[s args] [|]]; try reflexivity.
      destruct (HH s args eq_refl eq_refl) as [-> ->]. reflexivity.
  - cbn [check_self]. rewrite IHt. split; intros HH q lead segs Hm.
    + inversion Hm; subst; auto. + apply HH. now constructor.
  - cbn [check_self]. rewrite IHt. split; intros HH q lead segs Hm.
    + inversion Hm; subst; auto. + apply HH. now constructor.
  - cbn [check_self]. rewrite IHt. split; intros HH q lead segs Hm.
    + inversion Hm; subst; auto. + apply HH. now constructor.
  - split; [|reflexivity]. intros _ q lead segs Hm. inversion Hm.
  - rewrite check_tuple, check_all_ok. rewrite !Forall_forall in *. split.
    + intros HH q lead segs Hm. inversion Hm; subst. eapply H; eauto.
    + intros HH x Hx. apply H; [exact Hx|]. intros q lead segs Hm. apply HH. now apply (made_tuple _ _ x).
  - split; [|reflexivity]. intros _ q lead segs Hm. inversion Hm.
Qed.

Lemma composite_bytes t : composite t -> type_to_bytes t = let! _ := check_self t in Ret t.
Proof. destruct t; cbn; try contradiction; reflexivity. Qed.

Lemma c51_composite_partial_fact :
  forall t : sty, composite t ->
    (forall t', type_to_bytes t = Ret t' -> t' = t) /\
    (type_to_bytes t = Ret t <->
     forall q lead segs, made_of (YPath q lead segs) t ->
       q = None /\ (forall s args, lead = false -> segs = [(s, args)] -> s = "Self" /\ args = [])) /\
    (forall g x a, fn_arg_bytes g (ATyped x t) = Ret a <-> a = ATyped x t /\ type_to_bytes t = Ret t).
Proof.
  intros t Hc. rewrite (composite_bytes t Hc). split; [|split].
  - intros t'. destruct (check_panics t) as [-> | ->]; cbn; [intros [= <-]; reflexivity|discriminate].
  - rewrite <- (check_exact t : _ <-> _). destruct (check_panics t) as [-> | ->]; cbn; split; auto; discriminate.
  - intros g x a. unfold fn_arg_bytes.
    replace (process_generics t g) with (let! _ := check_self t in Ret t) by (destruct t; try contradiction Hc; reflexivity).
    destruct (check_panics t) as [E|E]; rewrite E; cbn.
    + rewrite (composite_bytes t Hc), E. cbn. split; [intros [= <-]; auto|intros [-> _]; reflexivity].
    + split; [discriminate|intros [_ ?]; discriminate].
Qed.

Lemma c51_plain_names_partial_fact :
  forall t : sty, composite t ->
    (forall s, s <> "Self" -> made_of (yname s) t -> exists why, type_to_bytes t = Panic why) /\
    ((forall q lead segs, made_of (YPath q lead segs) t -> YPath q lead segs = yname "Self") ->
     type_to_bytes t = Ret t).
Proof.
  intros t Hc. pose proof (c51_composite_partial_fact t Hc) as (_ & HX & _). split.
  - intros s Hs Hm. rewrite (composite_bytes t Hc) in *. destruct (check_panics t) as [E|E]; rewrite E in *; cbn in *; [|eauto].
    exfalso. destruct (proj1 HX eq_refl _ _ _ Hm) as [_ Hn]. destruct (Hn _ _ eq_refl eq_refl) as [? _]. contradiction.
  - intros HA. apply HX. intros q lead segs Hm. pose proof (HA _ _ _ Hm) as E. unfold yname in E. injection E as -> -> ->.
    split; [reflexivity|]. intros s args _ [= <- <-]. auto.
Qed.

(** ** Byte forms *)

Lemma part_trans a b c : part a b -> part b c -> part a c.
Proof. intros Hab Hbc. induction Hbc; eauto using part. Qed.

Lemma bytes_names s : mentions s y_bytes -> s = "std" \/ s = "u8".
Proof.
  intros (args & rest & H). unfold y_bytes in H.
  repeat match goal with
  | H : part _ (YSlice _) |- _ => inversion H; subst; clear H
  | H : part _ (YPath _ _ _) |- _ => inversion H; subst; clear H
  | H : In _ (_ :: _) |- _ => destruct H as [H|H]; [first [injection H as <- <- | subst]|]
  | H : In _ [] |- _ => destruct H
  end; unfold yname in *;
  repeat match goal with
  | H : part _ (YPath _ _ _) |- _ => inversion H; subst; clear H
  | H : In _ (_ :: _) |- _ => destruct H as [H|H]; [first [injection H as <- <- | subst]|]
  | H : In _ [] |- _ => destruct H
  end; auto.
Qed.
Lemma box_names s t : mentions s (y_box t) -> s = "Box" \/ mentions s t.
Proof.
  intros (args & rest & H). unfold y_box in H. inversion H; subst; auto.
  match goal with H : In _ [_] |- _ => destruct H as [H|[]]; injection H as <- <- end.
  match goal with H : In _ [_] |- _ => destruct H as [<-|[]] end. right. do 2 eexists; eauto.
Qed.
Lemma ref_names s m t : mentions s (YRef m t) -> mentions s t.
Proof. intros (args & rest & H). inversion H; subst. do 2 eexists; eauto. Qed.
Lemma ptr_names s m t : mentions s (YPtr m t) -> mentions s t.
Proof. intros (args & rest & H). inversion H; subst. do 2 eexists; eauto. Qed.
Lemma paren_names s t : mentions s (YParen t) -> mentions s t.
Proof. intros (args & rest & H). inversion H; subst. do 2 eexists; eauto. Qed.
Lemma paren_names' s t : mentions s t -> mentions s (YParen t).
Proof. intros (args & rest & H). do 2 eexists; constructor; eauto. Qed.
Lemma object_names s b : ~ mentions s (YObject b).
Proof. intros (args & rest & H). inversion H. Qed.

Definition not_std (s : string) : Prop := s <> "std" /\ s <> "u8" /\ s <> "Box".

Lemma self_bytes_names s t t' : not_std s -> self_bytes t t' -> ~ mentions s t'.
Proof.
  intros (H1 & H2 & H3). induction 1; intros HM.
  - apply box_names in HM as [?|HM]; [contradiction|]. apply bytes_names in HM as [?|?]; contradiction.
  - apply ref_names in HM. apply bytes_names in HM as [?|?]; contradiction.
  - apply ptr_names in HM. apply bytes_names in HM as [?|?]; contradiction.
  - apply paren_names in HM. auto.
Qed.
Lemma param_object_names s n b t t' : not_std s -> param_object n b t t' -> ~ mentions s t'.
Proof.
  intros (H1 & H2 & H3). induction 1; intros HM.
  - apply box_names in HM as [?|HM]; [contradiction|]. now apply object_names in HM.
  - apply ref_names in HM. now apply object_names in HM.
  - apply ptr_names in HM. now apply object_names in HM.
  - apply paren_names in HM. auto.
Qed.

Lemma self_bytes_ok t t' : self_bytes t t' -> type_to_bytes t = Ret t'.
Proof. induction 1; try reflexivity. cbn. now rewrite IHself_bytes. Qed.

Lemma path_mentions s : mentions s (yname s).
Proof. exists [], []. constructor. Qed.

Lemma direct_same p t : direct p t -> ~ mentions "Self" t -> type_to_bytes t = Ret t.
Proof.
  assert (HP : forall lead segs into, ~ mentions "Self" (YPath None lead segs) ->
             self_path_into None lead segs into = Ret (YPath None lead segs)).
  { intros lead segs into HM. unfold self_path_into. cbn. destruct lead; [reflexivity|].
    destruct segs as [|[s [|]] [|]]; try reflexivity.
    destruct (String.eqb_spec s "Self"); [|reflexivity]. subst. exfalso. apply HM. apply path_mentions. }
  induction 1; subst; intros HM.
  - apply HP. exact HM.
  - cbn [type_to_bytes self_to_byte_slice]. rewrite HP; [reflexivity|]. intros (a & r & H). apply HM. exists a, r. now constructor.
  - cbn [type_to_bytes self_to_byte_slice]. rewrite HP; [reflexivity|]. intros (a & r & H). apply HM. exists a, r. now constructor.
  - cbn [type_to_bytes]. rewrite IHdirect; [reflexivity|]. intros H'. apply HM. now apply paren_names'.
Qed.

Lemma c51_direct_partial_fact :
  (forall t t', self_bytes t t' -> type_to_bytes t = Ret t' /\ ~ mentions "Self" t') /\
  (forall p t, direct p t -> ~ mentions "Self" t -> type_to_bytes t = Ret t).
Proof.
  split; [|exact direct_same].
  intros t t' H. split; [now apply self_bytes_ok|]. eapply self_bytes_names; [|exact H].
  repeat split; discriminate.
Qed.

(** ** Signatures *)

Lemma where_plain_name g l s b : In (WType false (yname s) b) l \/ In (WType true (yname s) b) l ->
  exists why, fold_out add_pred l g = Panic why.
Proof.
  revert g. induction l as [|x l IH]; intros g; [intros [[]|[]]|].
  intros HI. cbn [fold_out].
  assert (HX : (exists g', add_pred g x = Ret g') \/ exists why, add_pred g x = Panic why).
  { destruct x as [[] ty bs| |]; cbn; eauto. destruct ty as [| | | | |q lead segs| | | | | |]; cbn; eauto.
    destruct q; cbn; eauto. destruct lead; cbn; eauto. destruct segs as [|[? args] [|]]; cbn; eauto. destruct args; cbn; eauto. }
  destruct HX as [[g' E]|[why E]]; [|rewrite E; cbn; eauto].
  rewrite E. cbn. destruct HI as [[->|HI]|[->|HI]]; [discriminate E|now apply IH; auto|discriminate E|now apply IH; auto].
Qed.

Lemma fold_params_panics l g : (exists g', fold_out add_param l g = Ret g') \/ exists why, fold_out add_param l g = Panic why.
Proof.
  revert g. induction l as [|x l IH]; intros g; cbn; [eauto|].
  destruct x as [[] n [] b []| |]; cbn; eauto.
Qed.

Lemma c68_where_refuted_fact :
  forall sg s b, (In (WType false (yname s) b) (sg_where sg) \/ In (WType true (yname s) b) (sg_where sg)) ->
    exists why, dync_fn_sig sg = Panic why.
Proof.
  intros sg s b HI. unfold dync_fn_sig.
  destruct (sg_const sg); cbn; [eauto|]. destruct (sg_async sg); cbn; [eauto|]. destruct (sg_abi sg); cbn; [eauto|].
  destruct (sg_variadic sg); cbn; [eauto|].
  destruct (fold_params_panics (sg_params sg) []) as [[g E]|[why E]]; rewrite E; cbn; [|eauto].
  destruct (where_plain_name g _ s b HI) as [why Ew]. rewrite Ew. cbn. eauto.
Qed.

Lemma Forall2_impl {A B} (P Q : A -> B -> Prop) l l' : (forall a b, P a b -> Q a b) -> Forall2 P l l' -> Forall2 Q l l'.
Proof. intros HI. induction 1; constructor; auto. Qed.
Lemma map_out_ret {A B} (f : A -> outcome B) l l' :
  map_out f l = Ret l' <-> Forall2 (fun x y => f x = Ret y) l l'.
Proof.
  revert l'. induction l as [|x l IH]; intros l'; cbn.
  - split; [intros [= <-]; constructor|]. now inversion 1.
  - split.
    + destruct (f x) eqn:E; cbn; try discriminate. destruct (map_out f l) eqn:E2; cbn; try discriminate.
      intros [= <-]. constructor; [exact E|]. now apply IH.
    + inversion 1; subst. match goal with H : f x = Ret _ |- _ => rewrite H end. cbn.
      match goal with H : Forall2 _ l _ |- _ => apply IH in H; rewrite H end. reflexivity.
Qed.

Lemma fold_params_form l : forall g g', fold_out add_param l g = Ret g' ->
  forall p, In p l -> exists s b, p = GType false s true b false.
Proof.
  induction l as [|x l IH]; intros g g' E p; [intros []|]. cbn [fold_out] in E.
  destruct (add_param g x) as [g1| | |] eqn:Ex; try discriminate E. cbn in E.
  intros [<-|Hp]; [|now apply (IH g1 g' E)].
  destruct x as [[] n [] b []| |]; try discriminate Ex. eauto.
Qed.
Lemma fold_preds_form l : forall g g', fold_out add_pred l g = Ret g' ->
  forall p, In p l -> p = WEq \/ exists t b, p = WType false t b.
Proof.
  induction l as [|x l IH]; intros g g' E p; [intros []|]. cbn [fold_out] in E.
  destruct (add_pred g x) as [g1| | |] eqn:Ex; try discriminate E. cbn in E.
  intros [<-|Hp]; [|now apply (IH g1 g' E)].
  destruct x as [[] t b| |]; try discriminate Ex; eauto.
Qed.

Lemma c68_shape_fact :
  forall sg sg', dync_fn_sig sg = Ret sg' ->
    ordinary sg /\ ordinary sg' /\ sg_unsafe sg' = true /\ sg_ident sg' = String.append (sg_ident sg) "_bytes" /\
    sg_params sg' = [] /\ sg_where sg' = [] /\
    (forall p, In p (sg_params sg) -> exists s b, p = GType false s true b false) /\
    (forall p, In p (sg_where sg) -> p = WEq \/ exists t b, p = WType false t b) /\
    (sg_output sg = None -> sg_output sg' = Some (YTuple [])) /\ sg_output sg' <> None /\
    Forall2 (fun a a' =>
      match a with
      | AReceiver true m => a' = ATyped "_self_" (YRef m y_bytes)
      | AReceiver false m => m = false /\ a' = ATyped "_self_" (y_box y_bytes)
      | ATyped x t => exists t', a' = ATyped x t'
      end) (sg_inputs sg) (sg_inputs sg').
Proof.
  intros sg sg' H. unfold dync_fn_sig in H. unfold ordinary.
  destruct (sg_const sg); [discriminate H|]. destruct (sg_async sg); [discriminate H|].
  destruct (sg_abi sg); [discriminate H|]. destruct (sg_variadic sg); [discriminate H|].
  cbn in H. destruct (fold_out add_param _ _) as [g| | |] eqn:EP; try discriminate H. cbn in H.
  destruct (fold_out add_pred _ _) as [g'| | |] eqn:EW; try discriminate H. cbn in H.
  destruct (map_out _ _) as [ins| | |] eqn:EM; try discriminate H. cbn in H.
  destruct (match sg_output sg with Some _ => _ | None => _ end) as [o| | |] eqn:EO; try discriminate H. cbn in H.
  injection H as <-. cbn. repeat (split; [auto; fail|]).
  split; [exact (fold_params_form _ _ _ EP)|]. split; [exact (fold_preds_form _ _ _ EW)|]. split.
  { intros E. rewrite E in EO. injection EO as <-. reflexivity. }
  split; [discriminate|]. apply map_out_ret in EM. eapply Forall2_impl; [|exact EM].
  intros [[] []|x t] a' E; cbn in E; try discriminate E; try (injection E as <-; auto; fail).
  destruct (process_generics t g'); try discriminate E. cbn in E. destruct (type_to_bytes a); try discriminate E.
  injection E as <-. eauto.
Qed.

(** *** Simple parameters *)

Lemma params_map l g : (forall p, In p l -> exists s b, p = GType false s true b false /\ has_trait_bound b) ->
  exists g', fold_out add_param l g = Ret g' /\
    (forall s, gm_get s g' = None <-> gm_get s g = None /\ forall b, ~ In (GType false s true b false) l) /\
    (forall s b, gm_get s g' = Some b -> gm_get s g = Some b \/ In (GType false s true b false) l) /\
    (NoDup (map (fun p => match p with GType _ s _ _ _ => s | _ => "" end) l) ->
     forall s b, In (GType false s true b false) l -> gm_get s g' = Some b).
Proof.
  revert g. induction l as [|x l IH]; intros g HS.
  - exists g. cbn. split; [reflexivity|]. split; [tauto|]. split; [auto|]. intros _ ? ? [].
  - destruct (HS x (or_introl eq_refl)) as (n & bs & -> & Hb). cbn.
    destruct (IH (gm_insert n bs g)) as (g' & E & HN & HSm & HD).
    { intros p Hp. apply HS. now right. }
    exists g'. split; [exact E|]. split; [|split].
    + intros s. rewrite HN. cbn. destruct (String.eqb_spec s n).
      * subst. split; [intros [? _]; discriminate|]. intros [_ H]. exfalso. eapply H. left. reflexivity.
      * split; intros [H1 H2]; split; auto.
        -- intros b [[= <- <-]|Hi]; [contradiction|]. now apply (H2 b).
        -- intros b Hi. apply (H2 b). now right.
    + intros s b Hg. destruct (HSm s b Hg) as [H1|H1]; [|auto]. cbn in H1. destruct (String.eqb_spec s n); [|auto].
      subst. injection H1 as <-. auto.
    + intros HND s b Hi. inversion HND as [|? ? Hn HND']; subst. destruct Hi as [[= <- <-]|Hi].
      * destruct (gm_get n g') as [b'|] eqn:Eg.
        -- destruct (HSm n b' Eg) as [H1|H1].
           ++ cbn in H1. now rewrite String.eqb_refl in H1.
           ++ exfalso. apply Hn. apply in_map_iff. eexists. split; [|exact H1]. reflexivity.
        -- apply HN in Eg as [H1 _]. cbn in H1. now rewrite String.eqb_refl in H1.
      * now apply HD.
Qed.

Lemma dyn_of_trait b : has_trait_bound b -> dyn_of b = Ret (YObject b).
Proof.
  intros (l & m & p & Hi). unfold dyn_of.
  replace (existsb _ b) with true; [reflexivity|]. symmetry. apply existsb_exists. eexists. split; [exact Hi|reflexivity].
Qed.

Section Simple.
Variable sg : signature.
Variable g : generics_map.
Hypothesis Hsome : forall s b, declares sg s b -> gm_get s g = Some b.
Hypothesis Hnone : forall s b, gm_get s g = Some b -> declares sg s b.
Hypothesis Htrait : forall s b, declares sg s b -> has_trait_bound b.
Hypothesis Hself : forall b, ~ declares sg "Self" b.

Lemma self_bytes_generics t t' : self_bytes t t' -> process_generics t g = Ret t.
Proof.
  assert (HS : gm_get "Self" g = None).
  { destruct (gm_get "Self" g) eqn:E; [|reflexivity]. exfalso. eapply Hself. eapply Hnone. exact E. }
  induction 1; unfold self_type, boxed, plain; cbn [process_generics generic_ref generic_path]; rewrite ?HS; try reflexivity.
  now rewrite IHself_bytes.
Qed.
Lemma param_generics s b t t' : declares sg s b -> param_object s b t t' ->
  process_generics t g = Ret t' /\ type_to_bytes t' = Ret t'.
Proof.
  intros HD. pose proof (Hsome s b HD) as HS. pose proof (dyn_of_trait b (Htrait s b HD)) as HB.
  induction 1 as [| | |? ? ? [IH1 IH2]]; unfold self_type, boxed, plain; cbn [process_generics generic_ref generic_path]; rewrite ?HS, ?HB; cbn; auto.
  rewrite IH1, IH2. auto.
Qed.
Lemma same_generics p t : direct p t -> (forall s b, declares sg s b -> ~ mentions s t) -> process_generics t g = Ret t.
Proof.
  assert (HP : forall lead segs o, (forall s b, declares sg s b -> ~ mentions s (YPath None lead segs)) ->
             generic_path None lead segs g o = Ret (YPath None lead segs)).
  { intros lead segs o HM. unfold generic_path. destruct lead; [reflexivity|].
    destruct segs as [|[s [|]] [|]]; try reflexivity.
    destruct (gm_get s g) as [b|] eqn:E; [|reflexivity]. exfalso. apply (HM s b); [now apply Hnone|]. apply path_mentions. }
  induction 1; subst; intros HM.
  - apply HP. exact HM.
  - cbn [process_generics generic_ref]. rewrite HP; [reflexivity|]. intros s b HD (a & r & H). apply (HM s b HD). exists a, r. now constructor.
  - cbn [process_generics generic_ref]. rewrite HP; [reflexivity|]. intros s b HD (a & r & H). apply (HM s b HD). exists a, r. now constructor.
  - cbn [process_generics]. rewrite IHdirect; [reflexivity|]. intros s b HD H'. apply (HM s b HD). now apply paren_names'.
Qed.
Lemma byte_form_type t t' : byte_form sg t t' -> (let! t1 := process_generics t g in type_to_bytes t1) = Ret t'.
Proof.
  destruct 1 as [t t' H|s b t t' HD H|p t H HS HG].
  - rewrite (self_bytes_generics t t' H). cbn. now apply self_bytes_ok.
  - destruct (param_generics s b t t' HD H) as [-> H2]. exact H2.
  - rewrite (same_generics p t H HG). cbn. now apply (direct_same p).
Qed.
Lemma byte_form_names s t t' : not_std s -> s = "Self" \/ (exists b, declares sg s b) -> byte_form sg t t' -> ~ mentions s t'.
Proof.
  intros Hn Hs. destruct 1 as [t t' H|n b t t' HD H|p t H HS HG].
  - now apply (self_bytes_names s t).
  - now apply (param_object_names s n b t).
  - destruct Hs as [->|[b Hb]]; [exact HS|eauto].
Qed.
End Simple.

Lemma c68_simple_partial_fact :
  forall sg ins out,
    ordinary sg -> simple_params sg -> (forall b, ~ declares sg "Self" b) ->
    Forall2 (byte_arg sg) (sg_inputs sg) ins -> byte_output sg (sg_output sg) out ->
    dync_fn_sig sg = Ret (Sig false false true false (String.append (sg_ident sg) "_bytes") [] [] ins false out).
Proof.
  intros sg ins out (H1 & H2 & H3 & H4) (HND & HS & HW) HSelf Hin Hout. unfold dync_fn_sig.
  rewrite H1, H2, H3, H4, HW. cbn.
  destruct (params_map (sg_params sg) [] HS) as (g & E & _ & HSm & HD). rewrite E. cbn.
  assert (Hsome : forall s b, declares sg s b -> gm_get s g = Some b) by (intros; now apply HD).
  assert (Hnone : forall s b, gm_get s g = Some b -> declares sg s b).
  { intros s b Hg. destruct (HSm s b Hg) as [?|?]; [discriminate|assumption]. }
  assert (Htrait : forall s b, declares sg s b -> has_trait_bound b).
  { intros s b Hd. destruct (HS _ Hd) as (s' & b' & [= <- <-] & Hb). exact Hb. }
  assert (Hins : map_out (fn_arg_bytes g) (sg_inputs sg) = Ret ins).
  { apply map_out_ret. eapply Forall2_impl; [|exact Hin]. intros a a' [m| |x t t' Hb]; cbn; try reflexivity.
    pose proof (byte_form_type sg g Hsome Hnone Htrait HSelf t t' Hb) as HB.
    destruct (process_generics t g); cbn in HB |- *; try discriminate HB. rewrite HB. reflexivity. }
  rewrite Hins. cbn. destruct Hout as [|t t' Hb]; [reflexivity|].
  now rewrite (byte_form_type sg g Hsome Hnone Htrait HSelf t t' Hb).
Qed.

Lemma c68_closed_partial_fact :
  forall sg ins out s t,
    Forall2 (byte_arg sg) (sg_inputs sg) ins -> byte_output sg (sg_output sg) out ->
    s = "Self" \/ (exists b, declares sg s b) -> s <> "std" -> s <> "u8" -> s <> "Box" ->
    (exists x, In (ATyped x t) ins) \/ out = Some t ->
    ~ mentions s t.
Proof.
  intros sg ins out s t Hin Hout Hs N1 N2 N3 Ht.
  assert (HF : forall t0 t', byte_form sg t0 t' -> ~ mentions s t').
  { intros t0 t'. apply byte_form_names; [repeat split; assumption|exact Hs]. }
  assert (HB : ~ mentions s (y_box y_bytes)).
  { intros HM. apply box_names in HM as [?|HM]; [contradiction|]. apply bytes_names in HM as [?|?]; contradiction. }
  destruct Ht as [[x Hx]| ->].
  - revert Hx. induction Hin as [|a a' l l' Ha Hl IH]; cbn; [tauto|].
    intros [->|Hx]; [|auto]. inversion Ha; subst; [|exact HB|eauto].
    intros HM. apply ref_names in HM. apply bytes_names in HM as [?|?]; contradiction.
  - inversion Hout; subst; [|eauto]. intros (a & r & HP). inversion HP; subst.
    match goal with H : In _ [] |- _ => destruct H end.
Qed.

(** ** Where the properties fail *)

Lemma c51_refuted_fact :
  (exists t, composite t /\ mentions "Self" t /\ type_to_bytes t = Ret t) /\
  (exists t why, composite t /\ ~ mentions "Self" t /\ type_to_bytes t = Panic why).
Proof.
  split.
  - exists (YArray (yname "Self")). split; [exact I|]. split; [|reflexivity].
    exists [], []. constructor. constructor.
  - exists (YArray (yname "u8")), PAssert. split; [exact I|]. split; [|reflexivity].
    intros (a & r & H). inversion H; subst. match goal with H : part _ _ |- _ => unfold yname in H; inversion H; subst end.
    match goal with H : In _ [_] |- _ => destruct H as [H|[]]; injection H as <- <- end.
    match goal with H : In _ [] |- _ => destruct H end.
Qed.

Lemma c51_hidden_self_refuted_fact :
  forall t, mentions "Self" t -> composite t \/ (exists n, t = YPath None false [(n, [yname "Self"])]) ->
    forall m, type_to_bytes (YRef m t) = Ret (YRef m t) /\ mentions "Self" (YRef m t).
Proof.
  intros t (a & r & H) Ht m. split.
  - destruct Ht as [Hc|[n ->]]; [destruct t; try contradiction Hc; reflexivity|reflexivity].
  - exists a, r. now constructor.
Qed.

Lemma c68_generic_left_refuted_fact :
  forall n b, n <> "Vec" ->
  let sg := Sig false false false false "f" [GType false n true b false] []
                [AReceiver true false; ATyped "x" (YPath None false [("Vec", [yname n])])] false None in
  exists ins, dync_fn_sig sg = Ret (Sig false false true false "f_bytes" [] [] ins false (Some (YTuple []))) /\
    exists t, In (ATyped "x" t) ins /\ mentions n t.
Proof.
  intros n b Hn sg. eexists. split; [reflexivity|]. eexists. split; [right; left; reflexivity|].
  exists [], []. apply (part_arg _ _ _ _ "Vec" [yname n] (yname n)); [now left|now left|constructor].
Qed.

(** ** Types that can be read back *)

Lemma readable_part p t : part p t -> readable t -> readable p.
Proof.
  intros Hp Hr m e He. apply (Hr m e). clear Hr.
  assert (HT : forall x y z, part x y -> part y z -> part x z).
  { intros x y z Hxy Hyz. induction Hyz;
      [exact Hxy|apply part_array|eapply part_input|apply part_output|apply part_group|apply part_paren
      |apply part_qself|eapply part_arg|apply part_ptr|apply part_ref|apply part_slice|eapply part_tuple]; eauto. }
  destruct He as [He|He]; [left|right]; exact (HT _ _ _ He Hp).
Qed.
Lemma readable_paren t : readable t <-> readable (YParen t).
Proof.
  split; [|apply readable_part; constructor; constructor].
  intros Hr m e [H|H]; inversion H; subst; eapply Hr; eauto.
Qed.
Lemma readable_under m t : readable t -> ~ several t -> readable (YRef m t) /\ readable (YPtr m t).
Proof.
  intros Hr Hs. split; intros m' e [H|H]; inversion H; subst; try exact Hs; eapply Hr; eauto.
Qed.
Lemma readable_object b : readable (YObject b).
Proof. intros m e [H|H]; inversion H. Qed.
Lemma readable_box t : readable t -> readable (y_box t).
Proof.
  intros Hr m e [H|H]; inversion H; subst;
    match goal with HI : In _ [_] |- _ => destruct HI as [HI|[]]; injection HI as <- <- end;
    match goal with HI : In _ [_] |- _ => destruct HI as [<-|[]] end; eapply Hr; eauto.
Qed.
Lemma readable_bytes : readable y_bytes.
Proof.
  intros m e [H|H]; inversion H; subst; clear H;
  match goal with HP : part _ _ |- _ => inversion HP; subst; clear HP end;
  match goal with HI : In (_, _) _ |- _ => destruct HI as [HI|[HI|[HI|[]]]]; injection HI as <- <- end;
  match goal with HI : In _ _ |- _ => destruct HI as [HI|HI]; [subst|destruct HI] || destruct HI end;
  match goal with HP : part _ (yname _) |- _ => unfold yname in HP; inversion HP; subst; clear HP end;
  match goal with HI : In (_, _) _ |- _ => destruct HI as [HI|[]]; injection HI as <- <- end;
  match goal with HI : In _ [] |- _ => destruct HI end.
Qed.

Definition single (g : generics_map) : Prop := forall s b, gm_get s g = Some b -> (List.length b <= 1)%nat.

Lemma path_not_several q l s : ~ several (YPath q l s).
Proof. intros (b & [H|H] & _); discriminate. Qed.

Lemma generic_path_readable q l s g owned t : single g -> generic_path q l s g owned = Ret t ->
  readable (YPath q l s) -> readable t /\ ~ several t.
Proof.
  intros Hg E Hr. unfold generic_path in E.
  assert (HX : t = YPath q l s -> readable t /\ ~ several t).
  { intros ->. split; [exact Hr|apply path_not_several]. }
  destruct l; [injection E as <-; auto|]. destruct s as [|[n [|]] [|]]; try (injection E as <-; now auto).
  destruct (gm_get n g) as [b|] eqn:Eg; [|injection E as <-; auto].
  unfold dyn_of in E. destruct (existsb _ _); [|discriminate E]. cbn in E. injection E as <-.
  specialize (Hg n b Eg). destruct owned.
  - split; [apply readable_box, readable_object|apply path_not_several].
  - split; [apply readable_object|]. intros (b' & [H|H] & Hl); [injection H as ->; lia|discriminate].
Qed.

Lemma under_inv m t : readable (YRef m t) \/ readable (YPtr m t) -> readable t /\ ~ several t.
Proof.
  intros [H|H]; (split; [eapply readable_part; [|exact H]; do 2 constructor|]);
    eapply (H m t); [left|right]; constructor.
Qed.

Lemma generics_readable g : single g -> forall t t', process_generics t g = Ret t' -> readable t -> readable t'.
Proof.
  intros Hg t. induction t; intros t' E Hr; cbn [process_generics] in E;
    try (destruct (check_generics _ g); try discriminate E; cbn in E; injection E as <-; exact Hr).
  - destruct (process_generics t g) as [e'| | |] eqn:Ee; try discriminate E. cbn in E. injection E as <-.
    apply -> readable_paren. apply IHt; [reflexivity|]. now apply <- readable_paren.
  - eapply generic_path_readable; eauto.
  - destruct (generic_ref t g) as [e'| | |] eqn:Ee; try discriminate E. cbn in E. injection E as <-.
    destruct (under_inv _ _ (or_intror Hr)) as [H1 H2]. apply readable_under; unfold generic_ref in Ee;
    (destruct t; try (injection Ee as <-; assumption); eapply generic_path_readable in Ee; tauto).
  - destruct (generic_ref t g) as [e'| | |] eqn:Ee; try discriminate E. cbn in E. injection E as <-.
    destruct (under_inv _ _ (or_introl Hr)) as [H1 H2]. apply readable_under; unfold generic_ref in Ee;
    (destruct t; try (injection Ee as <-; assumption); eapply generic_path_readable in Ee; tauto).
Qed.

Lemma self_path_readable q l s into t : self_path_into q l s into = Ret t -> readable (YPath q l s) ->
  readable into -> ~ several into -> readable t /\ ~ several t.
Proof.
  intros E Hr Hi Hs. unfold self_path_into in E. destruct q; [discriminate E|]. cbn in E.
  assert (HX : t = YPath None l s \/ t = into -> readable t /\ ~ several t).
  { intros [-> | ->]; split; auto using path_not_several. }
  apply HX. destruct l; [injection E as <-; auto|]. destruct s as [|[n [|]] [|]]; try (injection E as <-; now auto).
  destruct (n =? "Self")%string; injection E as <-; auto.
Qed.

Lemma bytes_not_several : ~ several y_bytes.
Proof. intros (b & [H|H] & _); discriminate. Qed.

Lemma bytes_readable t : forall t', type_to_bytes t = Ret t' -> readable t -> readable t'.
Proof.
  induction t; intros t' E Hr; cbn [type_to_bytes] in E;
    try (destruct (check_self _); try discriminate E; cbn in E; injection E as <-; exact Hr).
  - injection E as <-. apply readable_object.
  - destruct (type_to_bytes t) as [e'| | |] eqn:Ee; try discriminate E. cbn in E. injection E as <-.
    apply -> readable_paren. apply IHt; [reflexivity|]. now apply <- readable_paren.
  - eapply self_path_readable in E; [|exact Hr|apply readable_box, readable_bytes|apply path_not_several]. tauto.
  - destruct (self_to_byte_slice t) as [e'| | |] eqn:Ee; try discriminate E. cbn in E. injection E as <-.
    destruct (under_inv _ _ (or_intror Hr)) as [H1 H2]. apply readable_under; unfold self_to_byte_slice in Ee;
    (destruct t; try (injection Ee as <-; assumption);
     eapply self_path_readable in Ee; [|exact H1|apply readable_bytes|apply bytes_not_several]; tauto).
  - destruct (self_to_byte_slice t) as [e'| | |] eqn:Ee; try discriminate E. cbn in E. injection E as <-.
    destruct (under_inv _ _ (or_introl Hr)) as [H1 H2]. apply readable_under; unfold self_to_byte_slice in Ee;
    (destruct t; try (injection Ee as <-; assumption);
     eapply self_path_readable in Ee; [|exact H1|apply readable_bytes|apply bytes_not_several]; tauto).
Qed.

Lemma single_insert s b g : single g -> (List.length b <= 1)%nat -> single (gm_insert s b g).
Proof.
  intros Hg Hb n c. cbn. destruct (n =? s)%string; [intros [= <-]; exact Hb|apply Hg].
Qed.
Lemma fold_params_single l : forall g g', fold_out add_param l g = Ret g' -> single g ->
  (forall s b, In (GType false s true b false) l -> (List.length b <= 1)%nat) -> single g'.
Proof.
  induction l as [|x l IH]; intros g g' E Hg Hl; [injection E as <-; exact Hg|]. cbn [fold_out] in E.
  destruct (add_param g x) as [g1| | |] eqn:Ex; try discriminate E. cbn in E.
  apply (IH g1 g' E); [|intros s b Hi; apply (Hl s b); now right].
  destruct x as [[] n [] b []| |]; try discriminate Ex. injection Ex as <-. apply single_insert; [exact Hg|].
  apply (Hl n b). now left.
Qed.
Lemma fold_preds_single l : forall g g', fold_out add_pred l g = Ret g' -> single g ->
  (forall t b, In (WType false t b) l -> (List.length b <= 1)%nat) -> single g'.
Proof.
  induction l as [|x l IH]; intros g g' E Hg Hl; [injection E as <-; exact Hg|]. cbn [fold_out] in E.
  destruct (add_pred g x) as [g1| | |] eqn:Ex; try discriminate E. cbn in E.
  apply (IH g1 g' E); [|intros s b Hi; apply (Hl s b); now right].
  destruct x as [[] t b| |]; try discriminate Ex; [|injection Ex as <-; exact Hg].
  destruct t as [| | | | |q lead segs| | | | | |]; try (injection Ex as <-; exact Hg).
  cbn in Ex. destruct q; [discriminate|]. destruct lead; [discriminate|].
  destruct segs as [|[n args] [|]]; try discriminate. cbn in Ex. destruct args; [discriminate|]. injection Ex as <-.
  apply single_insert; [exact Hg|]. eapply Hl. left. reflexivity.
Qed.

Lemma c79_single_partial_fact :
  forall sg sg', dync_fn_sig sg = Ret sg' ->
    (forall s b, declares sg s b -> (List.length b <= 1)%nat) ->
    (forall t b, In (WType false t b) (sg_where sg) -> (List.length b <= 1)%nat) ->
    (forall t, written_in t sg -> readable t) ->
    forall t, written_in t sg' -> readable t.
Proof.
  intros sg sg' H Hd Hw Hr. unfold dync_fn_sig in H.
  destruct (sg_const sg); [discriminate H|]. destruct (sg_async sg); [discriminate H|].
  destruct (sg_abi sg); [discriminate H|]. destruct (sg_variadic sg); [discriminate H|].
  cbn in H. destruct (fold_out add_param _ _) as [g| | |] eqn:EP; try discriminate H. cbn in H.
  destruct (fold_out add_pred _ _) as [g'| | |] eqn:EW; try discriminate H. cbn in H.
  destruct (map_out _ _) as [ins| | |] eqn:EM; try discriminate H. cbn in H.
  destruct (match sg_output sg with Some _ => _ | None => _ end) as [o| | |] eqn:EO; try discriminate H. cbn in H.
  injection H as <-.
  assert (Hg : single g').
  { eapply fold_preds_single; [exact EW| |exact Hw]. eapply fold_params_single; [exact EP| |exact Hd].
    intros s b H. discriminate H. }
  intros t [[x Hx]|Ho].
  - cbn in Hx. apply map_out_ret in EM.
    assert (HI : forall x t, In (ATyped x t) (sg_inputs sg) -> readable t) by (intros y u Hi; apply Hr; left; eauto).
    clear Hr EO. revert HI. induction EM as [|a a' l l' Ea _ IH]; [destruct Hx|]. intros HI.
    destruct Hx as [->|Hx]; [|apply IH; [exact Hx|intros y u Hi; apply (HI y); now right]].
    destruct a as [[] []|y u]; cbn in Ea; try discriminate Ea.
    1,2: injection Ea as _ <-; apply readable_under; [apply readable_bytes|apply bytes_not_several].
    1: injection Ea as _ <-; apply readable_box, readable_bytes.
    destruct (process_generics u g') as [u1| | |] eqn:E1; try discriminate Ea. cbn in Ea.
    destruct (type_to_bytes u1) as [u2| | |] eqn:E2; try discriminate Ea. injection Ea as _ <-.
    eapply bytes_readable; [exact E2|]. eapply generics_readable; [exact Hg|exact E1|].
    apply (HI y). now left.
  - cbn in Ho. injection Ho as ->. destruct (sg_output sg) as [u|] eqn:Eu.
    + destruct (process_generics u g') as [u1| | |] eqn:E1; try discriminate EO. cbn in EO.
      eapply bytes_readable; [exact EO|]. eapply generics_readable; [exact Hg|exact E1|].
      apply Hr. right. exact Eu.
    + injection EO as <-. intros m e [H|H]; inversion H; subst; match goal with HI : In _ [] |- _ => destruct HI end.
Qed.

Lemma c79_refuted_fact :
  forall n b m, has_trait_bound b -> (2 <= List.length b)%nat ->
  let sg := Sig false false false false "f" [GType false n true b false] []
                [AReceiver true false; ATyped "x" (YRef m (yname n))] false None in
  (forall t, written_in t sg -> readable t) /\
  exists sg' t, dync_fn_sig sg = Ret sg' /\ written_in t sg' /\ t = YRef m (YObject b) /\ ~ readable t.
Proof.
  intros n b m (l & q & p & Hb) Hl sg. split.
  - intros t [[x Hx]|Ho]; [|discriminate Ho]. destruct Hx as [Hx|[Hx|[]]]; [discriminate Hx|]. injection Hx as _ <-.
    apply readable_under; [|apply path_not_several].
    intros m' e [H|H]; unfold yname in H; inversion H; subst;
    match goal with HI : In _ [_] |- _ => destruct HI as [HI|[]]; injection HI as <- <- end;
    match goal with HI : In _ [] |- _ => destruct HI end.
  - unfold dync_fn_sig, sg. cbn. rewrite String.eqb_refl. unfold dyn_of.
    assert (E : existsb (fun x => match x with BLifetime => false | _ => true end) b = true).
    { apply existsb_exists. exists (BTrait l q p). auto. }
    rewrite E. cbn. eexists. exists (YRef m (YObject b)). split; [reflexivity|]. split.
    { left. exists "x". cbn. auto. }
    split; [reflexivity|]. intros Hr. apply (Hr m (YObject b)); [left; constructor|]. exists b. auto.
Qed.
