(** * DeriveMap: the trait map the macros build, against the declared hierarchy. *)

From Verif Require Import Base Value Derive DeriveSem DeriveSpec DeriveProofs.
From Coq Require Import Sorting.Sorted Relations.
Local Open Scope string_scope.
Local Open Scope list_scope.

(** ** Names *)

Lemma reserved_user s : ~ In s reserved -> trait_of_name s = TCustom s.
Proof.
  unfold trait_of_name. intros H.
  repeat match goal with
  | |- context [String.eqb s ?x] =>
      let E := fresh in
      destruct (String.eqb s x) eqn:E;
        [apply String.eqb_eq in E; exfalso; apply H; rewrite E; cbn; tauto|clear E]
  end.
  reflexivity.
Qed.

Lemma segs_eqb_eq a b : segs_eqb a b = true <-> a = b.
Proof.
  revert b. induction a as [|[x f] a IH]; intros [|[y g] b]; cbn; split; try discriminate; auto.
  - rewrite !andb_true_iff. intros [[E1 E2] E3].
    apply String.eqb_eq in E1. apply Bool.eqb_prop in E2. apply IH in E3. congruence.
  - intros E; inversion E; subst. rewrite String.eqb_refl, Bool.eqb_reflx.
    rewrite (proj2 (IH b) eq_refl). reflexivity.
Qed.

Lemma path_eqb_eq a b : path_eqb a b = true <-> a = b.
Proof.
  unfold path_eqb. destruct a as [la sa], b as [lb sb]; cbn. rewrite andb_true_iff, segs_eqb_eq.
  split.
  - intros [E1 E2]. apply Bool.eqb_prop in E1. congruence.
  - intros E; inversion E; subst. rewrite Bool.eqb_reflx. auto.
Qed.

Lemma trait_of_path_known p t : In (p, t) known_paths -> trait_of_path p = t.
Proof.
  cbn. intros H. repeat destruct H as [H|H]; try (inversion H; subst; reflexivity).
Qed.

Lemma trait_of_path_user p :
  ~ In p (map fst known_paths) -> trait_of_path p = TCustom (path_string p).
Proof.
  unfold trait_of_path. intros H.
  repeat match goal with
  | |- context [path_eqb p ?x] =>
      let E := fresh in
      destruct (path_eqb p x) eqn:E;
        [apply path_eqb_eq in E; exfalso; apply H; rewrite E; cbn; tauto|clear E]
  end.
  reflexivity.
Qed.

Lemma known_dec p : In p (map fst known_paths) \/ ~ In p (map fst known_paths).
Proof.
  destruct (existsb (path_eqb p) (map fst known_paths)) eqn:E.
  - left. apply existsb_exists in E. destruct E as (q & Hq & E). apply path_eqb_eq in E. subst; exact Hq.
  - right. intros H. assert (existsb (path_eqb p) (map fst known_paths) = true); [|congruence].
    apply existsb_exists. exists p. split; [exact H|apply path_eqb_eq; reflexivity].
Qed.

Lemma known_no_args p s args : In p (map fst known_paths) -> In (s, args) (tp_segs p) -> args = false.
Proof.
  cbn [known_paths map fst In]. intros H Hs.
  repeat match goal with H : _ \/ _ |- _ => destruct H as [H|H] end; try contradiction;
    subst p; cbn in Hs; repeat destruct Hs as [Hs|Hs]; try (inversion Hs; reflexivity);
    contradiction.
Qed.

Lemma bound_trait_names b t : bound_trait b = Some t <-> names b t.
Proof.
  split.
  - destruct b as [|l q p]; cbn; [discriminate|].
    destruct l; cbn; [discriminate|]. destruct q; cbn; [discriminate|].
    destruct (forallb _ (tp_segs p)) eqn:E; [|discriminate]. intros H; inversion H; subst.
    destruct (known_dec p) as [Hk|Hk].
    + apply in_map_iff in Hk. destruct Hk as ([p' t] & <- & Hin). cbn.
      rewrite (trait_of_path_known _ _ Hin). constructor. exact Hin.
    + rewrite trait_of_path_user by exact Hk. constructor; [exact Hk|].
      intros s args Hs. rewrite forallb_forall in E. specialize (E _ Hs). cbn in E.
      destruct args; [discriminate|reflexivity].
  - intros H. destruct H as [p t Hk|p Hk Ha]; cbn.
    + assert (E : forallb (fun s => negb (snd s)) (tp_segs p) = true).
      { apply forallb_forall. intros [s args] Hs. cbn.
        rewrite (known_no_args p s args); [reflexivity| |exact Hs].
        apply in_map_iff. exists (p, t); auto. }
      rewrite E. rewrite (trait_of_path_known _ _ Hk). reflexivity.
    + assert (E : forallb (fun s => negb (snd s)) (tp_segs p) = true).
      { apply forallb_forall. intros [s args] Hs. cbn. rewrite (Ha _ _ Hs). reflexivity. }
      rewrite E, trait_of_path_user by exact Hk. reflexivity.
Qed.

Lemma filter_map_in {A B} (f : A -> option B) l y :
  In y (filter_map f l) <-> exists x, In x l /\ f x = Some y.
Proof.
  induction l as [|a l IH]; cbn; [split; [intros []|intros (x & [] & _)]|].
  destruct (f a) as [z|] eqn:E; cbn; rewrite IH; split.
  - intros [<-|(x & Hx & Ex)]; [exists a; auto|exists x; auto].
  - intros (x & [<-|Hx] & Ex); [left; congruence|right; exists x; auto].
  - intros (x & Hx & Ex); exists x; auto.
  - intros (x & [<-|Hx] & Ex); [congruence|exists x; auto].
Qed.

(** ** The map before flattening *)

Definition fill_all (its : list item_trait) (m : trait_map) : trait_map :=
  fold_left (fun m it => fill_trait_map it m) its m.

Definition entry_of (it : item_trait) : trait_data :=
  TraitData [it_name it] [] (set_collect (filter_map bound_trait (it_bounds it))).

Lemma fill_one_get it m k :
  ~ In (it_name it) reserved -> tm_get (TCustom (it_name it)) m = None ->
  tm_get k (fill_trait_map it m)
  = if trait_eqb k (TCustom (it_name it)) then Some (entry_of it) else tm_get k m.
Proof.
  intros Hr Hn. unfold fill_trait_map. rewrite (reserved_user _ Hr), Hn. reflexivity.
Qed.

Lemma fill_all_get its : forall m,
  NoDup (map it_name its) ->
  (forall it, In it its -> ~ In (it_name it) reserved) ->
  (forall it, In it its -> tm_get (TCustom (it_name it)) m = None) ->
  (forall it, In it its -> tm_get (TCustom (it_name it)) (fill_all its m) = Some (entry_of it))
  /\ (forall k, (forall it, In it its -> k <> TCustom (it_name it)) ->
        tm_get k (fill_all its m) = tm_get k m)
  /\ (List.length (fill_all its m) <= List.length its + List.length m)%nat.
Proof.
  unfold fill_all. induction its as [|it its IH]; intros m Hd Hr Hn; cbn [fold_left].
  - split; [intros it []|]. split; [reflexivity|cbn; lia].
  - inversion Hd as [|? ? Hnin Hd']; subst.
    assert (Hget := fun k => fill_one_get it m k (Hr it (or_introl eq_refl))
                                          (Hn it (or_introl eq_refl))).
    assert (Hne : forall it', In it' its -> TCustom (it_name it') <> TCustom (it_name it)).
    { intros it' Hin E. apply Hnin. injection E as E'. rewrite <- E'. apply in_map. exact Hin. }
    destruct (IH (fill_trait_map it m) Hd') as (H1 & H2 & H3).
    + intros it' Hin. apply Hr. right; exact Hin.
    + intros it' Hin. rewrite Hget. rewrite (proj2 (trait_eqb_neq _ _) (Hne it' Hin)).
      apply Hn. right; exact Hin.
    + split; [|split].
      * intros it' [<-|Hin]; [|apply H1; exact Hin].
        rewrite H2; [|intros it' Hin E; exact (Hne it' Hin (eq_sym E))].
        rewrite Hget, trait_eqb_refl. reflexivity.
      * intros k Hk. rewrite H2; [|intros it' Hin; apply Hk; right; exact Hin].
        rewrite Hget, (proj2 (trait_eqb_neq _ _)); [reflexivity|]. apply Hk. left; reflexivity.
      * assert (List.length (fill_trait_map it m) <= S (List.length m))%nat.
        { unfold fill_trait_map. destruct (tm_get _ m); cbn; lia. }
        cbn. lia.
Qed.

(** A standard trait. *)
Definition std (t : trait) : bool := match t with TCustom _ => false | _ => true end.

Lemma builtins_custom s : tm_get (TCustom s) builtins = None.
Proof. reflexivity. Qed.

Section Hier.
Context (its : list item_trait) (Hh : hierarchy its).

Definition start_map : trait_map := fill_all its builtins.

Lemma start_get :
  (forall it, In it its -> tm_get (TCustom (it_name it)) start_map = Some (entry_of it))
  /\ (forall k, (forall it, In it its -> k <> TCustom (it_name it)) ->
        tm_get k start_map = tm_get k builtins)
  /\ (List.length start_map <= List.length its + 8)%nat.
Proof.
  apply (fill_all_get its builtins (h_distinct _ Hh) (h_names _ Hh)).
  intros it _. reflexivity.
Qed.

Lemma start_std t : std t = true -> tm_get t start_map = tm_get t builtins.
Proof.
  intros Ht. apply (proj1 (proj2 start_get)). intros it _ ->. discriminate.
Qed.

Lemma start_edge a b : edge start_map a b ->
  (exists it bd, In it its /\ a = TCustom (it_name it) /\ In bd (it_bounds it) /\ names bd b)
  \/ (a = TEq /\ b = TPartialEq).
Proof.
  intros (d & E & Hb). destruct a;
    try (rewrite start_std in E by reflexivity; cbn in E; inversion E; subst d; cbn in Hb;
         repeat destruct Hb as [Hb|Hb]; try destruct Hb; right; auto).
  destruct (in_dec string_dec name (map it_name its)) as [Hin|Hnin].
  - apply in_map_iff in Hin. destruct Hin as (it & <- & Hit).
    rewrite (proj1 start_get it Hit) in E. inversion E; subst d. cbn in Hb.
    apply (proj1 (set_collect_in _ _)) in Hb. apply filter_map_in in Hb.
    destruct Hb as (bd & Hbd & En). left. exists it, bd. repeat split; auto.
    apply bound_trait_names; exact En.
  - rewrite (proj1 (proj2 start_get)) in E; [discriminate|].
    intros it Hit E'. inversion E'; subst name. apply Hnin. apply in_map; exact Hit.
Qed.

Lemma start_reach a b : reach start_map a b <-> inherits its a b.
Proof.
  split.
  - intros H. induction H as [x y He|x y z _ IH1 _ IH2].
    + destruct (start_edge _ _ He) as [(it & bd & Hit & -> & Hbd & Hn)|[-> ->]].
      * eapply inherits_bound; eauto.
      * constructor.
    + eapply inherits_trans; eauto.
  - intros H. induction H as [it bd t Hit Hbd Hn| |x y z _ IH1 _ IH2].
    + apply t_step. exists (entry_of it). split; [apply (proj1 start_get); exact Hit|].
      cbn. apply set_collect_in, filter_map_in. exists bd. split; [exact Hbd|].
      apply bound_trait_names; exact Hn.
    + apply t_step. exists (TraitData ["Eq"] [] [TPartialEq]). rewrite start_std by reflexivity.
      split; [reflexivity|left; reflexivity].
    + eapply t_trans; eauto.
Qed.

Lemma start_acyclic : acyclic_map start_map.
Proof. intros t Ht. apply start_reach in Ht. exact (h_acyclic _ Hh t Ht). Qed.

End Hier.

(** ** The map the tables are generated from *)

(** [tables its off m]: in [m] every standard trait has its data with [Drop] added, every declared
    trait [s] has the supertraits [off s], sorted, and no other trait is known. *)
Record tables (its : list item_trait) (off : string -> trait -> Prop) (m : trait_map) : Prop :=
  Tables {
  tb_std : forall t, std t = true -> tm_get t m = tm_get t (fill_drop builtins);
  tb_user : forall it, In it its ->
    exists ss, tm_get (TCustom (it_name it)) m = Some (TraitData [it_name it] [] ss)
               /\ StronglySorted tlt ss /\ forall x, In x ss <-> off (it_name it) x;
  tb_other : forall s, ~ In s (map it_name its) -> tm_get (TCustom s) m = None
}.

Lemma fill_drop_get m k :
  tm_get k (fill_drop m)
  = match tm_get k m with
    | None => None
    | Some d => Some (match k with
                      | TDrop => d
                      | _ => TraitData (td_path d) (td_methods d) (set_insert TDrop (td_supers d))
                      end)
    end.
Proof.
  unfold fill_drop. induction m as [|[k' d] m IH]; [reflexivity|]. cbn [map tm_get fst snd].
  destruct k' eqn:Ek'; cbn [tm_get];
    (destruct (trait_eqb k _) eqn:E; [apply trait_eqb_eq in E; subst k; reflexivity|exact IH]).
Qed.

Theorem flatten_tables depth its :
  hierarchy its -> (List.length its + 8 < depth)%nat ->
  exists m, fill_and_flatten depth its builtins = Ret m
            /\ tables its (fun s => offered its (TCustom s)) (fill_drop m).
Proof.
  intros Hh Hd. unfold fill_and_flatten. fold (fill_all its builtins). fold (start_map its).
  destruct (start_get its Hh) as (Hg1 & Hg2 & Hg3).
  assert (Hname : forall it, In it its -> trait_of_name (it_name it) = TCustom (it_name it)).
  { intros it Hit. apply reserved_user. apply (h_names _ Hh); exact Hit. }
  assert (Hlen : (List.length (start_map its) < depth)%nat) by lia.
  destruct (flatten_all_facts depth (start_map its) (start_acyclic its Hh) Hlen
              its (start_map its) (flat_inv_refl _)) as (m & Em & Hi & Hother & Hthis).
  { intros it Hit. rewrite (Hname it Hit). exists (entry_of it). apply Hg1; exact Hit. }
  exists m. split; [exact Em|]. split.
  - intros t Ht. rewrite !fill_drop_get, Hother.
    + rewrite start_std by assumption. reflexivity.
    + rewrite in_map_iff. intros (it & E & Hit). rewrite (Hname it Hit) in E. subst t. discriminate.
  - intros it Hit. destruct (Hthis it Hit) as (d & Ed & Hs & Hx). rewrite (Hname it Hit) in *.
    pose proof (fi_data _ _ Hi (TCustom (it_name it))) as Hdat. rewrite Ed, (Hg1 it Hit) in Hdat.
    destruct Hdat as [Hp Hm]. exists (set_insert TDrop (td_supers d)).
    rewrite fill_drop_get, Ed, Hp, Hm. split; [reflexivity|].
    split; [apply set_insert_sorted; exact Hs|].
    intros x. rewrite set_insert_in, Hx, (start_reach its Hh). reflexivity.
  - intros s Hs. rewrite fill_drop_get, Hother, Hg2; [reflexivity| |].
    + intros it Hit E. inversion E; subst s. apply Hs. apply in_map; exact Hit.
    + rewrite in_map_iff. intros (it & E & Hit). rewrite (Hname it Hit) in E.
      inversion E; subst s. apply Hs. apply in_map; exact Hit.
Qed.

(** What [dync_trait] offers: only the supertraits named directly. *)
Definition offered_directly (it : item_trait) (s : string) (b : trait) : Prop :=
  b = TDrop \/ exists bd, In bd (it_bounds it) /\ names bd b.

Theorem trait_tables it :
  ~ In (it_name it) reserved ->
  tables [it] (offered_directly it) (fill_drop (fill_trait_map it builtins)).
Proof.
  intros Hr.
  assert (Hget := fun k => fill_one_get it builtins k Hr (builtins_custom _)).
  split.
  - intros t Ht. rewrite !fill_drop_get, Hget.
    destruct (trait_eqb t (TCustom (it_name it))) eqn:E; [|reflexivity].
    apply trait_eqb_eq in E; subst t. discriminate.
  - intros it' [<-|[]]. exists (set_insert TDrop (set_collect (filter_map bound_trait (it_bounds it)))).
    rewrite fill_drop_get, Hget, trait_eqb_refl. cbn. split; [reflexivity|].
    split; [apply set_insert_sorted, set_collect_sorted|].
    intros x. rewrite set_insert_in, set_collect_in, filter_map_in. unfold offered_directly.
    split; (intros [->|(bd & H1 & H2)]; [left; reflexivity|right; exists bd]);
      (split; [exact H1|apply bound_trait_names; exact H2]).
  - intros s Hs. rewrite fill_drop_get, Hget.
    rewrite (proj2 (trait_eqb_neq _ _)); [reflexivity|]. intros E; inversion E; subst s.
    apply Hs. left; reflexivity.
Qed.
