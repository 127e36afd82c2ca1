(** * DeriveProofs: sorted sets, trait maps and flattening. *)

From Verif Require Import Base Value Derive DeriveSem DeriveSpec.
From Coq Require Import Ascii Sorting.Sorted Relations.
Local Open Scope string_scope.
Local Open Scope list_scope.

(** ** The order on traits *)

Lemma ascii_cmp_refl (a : ascii) : Ascii.compare a a = Eq.
Proof. unfold Ascii.compare. apply N.compare_refl. Qed.

Lemma string_cmp_refl (s : string) : String.compare s s = Eq.
Proof. induction s as [|c s IH]; cbn; [reflexivity|]. rewrite ascii_cmp_refl. exact IH. Qed.

Lemma string_cmp_trans (a b c : string) :
  String.compare a b = Lt -> String.compare b c = Lt -> String.compare a c = Lt.
Proof.
  revert b c; induction a as [|x a IH]; intros [|y b] [|z c]; cbn; try discriminate; auto.
  destruct (Ascii.compare x y) eqn:E1; destruct (Ascii.compare y z) eqn:E2; try discriminate;
    intros H1 H2.
  - apply Ascii.compare_eq_iff in E1; subst y. rewrite E2. eapply IH; eauto.
  - apply Ascii.compare_eq_iff in E1; subst y. rewrite E2. reflexivity.
  - apply Ascii.compare_eq_iff in E2; subst z. rewrite E1. reflexivity.
  - unfold Ascii.compare in *. rewrite N.compare_lt_iff in *.
    assert (Hlt : (N_of_ascii x < N_of_ascii z)%N) by lia.
    apply N.compare_lt_iff in Hlt. rewrite Hlt. reflexivity.
Qed.

Lemma trait_cmp_refl (a : trait) : trait_cmp a a = Eq.
Proof. destruct a; try reflexivity. apply string_cmp_refl. Qed.

Lemma trait_cmp_eq (a b : trait) : trait_cmp a b = Eq -> a = b.
Proof.
  destruct a, b; cbn; try discriminate; intros H; try reflexivity.
  f_equal. apply String.compare_eq_iff. exact H.
Qed.

Lemma trait_cmp_antisym (a b : trait) : trait_cmp a b = CompOpp (trait_cmp b a).
Proof. destruct a, b; cbn; try reflexivity. apply String.compare_antisym. Qed.

Lemma trait_cmp_trans (a b c : trait) : trait_cmp a b = Lt -> trait_cmp b c = Lt -> trait_cmp a c = Lt.
Proof.
  destruct a, b; cbn; try discriminate; destruct c; cbn; try discriminate; auto.
  apply string_cmp_trans.
Qed.

Lemma trait_eqb_eq (a b : trait) : trait_eqb a b = true <-> a = b.
Proof.
  unfold trait_eqb. split.
  - destruct (trait_cmp a b) eqn:E; try discriminate. intros _. apply trait_cmp_eq; exact E.
  - intros ->. rewrite trait_cmp_refl. reflexivity.
Qed.

Lemma trait_eqb_refl (a : trait) : trait_eqb a a = true.
Proof. apply trait_eqb_eq; reflexivity. Qed.

Lemma trait_eqb_neq (a b : trait) : trait_eqb a b = false <-> a <> b.
Proof.
  split.
  - intros E ->. rewrite trait_eqb_refl in E. discriminate.
  - intros H. destruct (trait_eqb a b) eqn:E; [|reflexivity]. apply trait_eqb_eq in E. contradiction.
Qed.

Lemma trait_dec (a b : trait) : {a = b} + {a <> b}.
Proof.
  destruct (trait_eqb a b) eqn:E; [left|right].
  - apply trait_eqb_eq; exact E.
  - apply trait_eqb_neq; exact E.
Qed.

(** ** Sorted sets *)

Definition tlt (a b : trait) : Prop := trait_cmp a b = Lt.

Lemma set_insert_in x y l : In x (set_insert y l) <-> x = y \/ In x l.
Proof.
  induction l as [|z l IH]; cbn.
  - split; intuition (subst; auto).
  - destruct (trait_cmp y z) eqn:E; cbn.
    + apply trait_cmp_eq in E; subst z. split; intuition (subst; auto).
    + split; intuition (subst; auto).
    + rewrite IH. tauto.
Qed.

Lemma set_insert_sorted y l : StronglySorted tlt l -> StronglySorted tlt (set_insert y l).
Proof.
  intros H. induction H as [|z l Hs IH Hf]; cbn.
  - constructor; constructor.
  - destruct (trait_cmp y z) eqn:E.
    + constructor; assumption.
    + constructor; [constructor; assumption|]. constructor; [exact E|].
      rewrite Forall_forall in *. intros w Hw. eapply trait_cmp_trans; [exact E|]. apply Hf; exact Hw.
    + constructor; [exact IH|]. rewrite Forall_forall in *. intros w Hw.
      apply set_insert_in in Hw. destruct Hw as [->|Hw]; [|apply Hf; exact Hw].
      unfold tlt. rewrite trait_cmp_antisym, E. reflexivity.
Qed.

Lemma set_extend_in x l s : In x (set_extend s l) <-> In x s \/ In x l.
Proof.
  unfold set_extend. revert s. induction l as [|y l IH]; intros s; cbn; [tauto|].
  rewrite IH, set_insert_in. split; intuition (subst; auto).
Qed.

Lemma set_extend_sorted l s : StronglySorted tlt s -> StronglySorted tlt (set_extend s l).
Proof.
  unfold set_extend. revert s. induction l as [|y l IH]; intros s H; cbn; [exact H|].
  apply IH, set_insert_sorted, H.
Qed.

Lemma set_collect_in x l : In x (set_collect l) <-> In x l.
Proof. unfold set_collect. rewrite set_extend_in. cbn. tauto. Qed.

Lemma set_collect_sorted l : StronglySorted tlt (set_collect l).
Proof. apply set_extend_sorted. constructor. Qed.

Lemma tlt_irrefl a : ~ tlt a a.
Proof. unfold tlt. rewrite trait_cmp_refl. discriminate. Qed.

Lemma sorted_nodup l : StronglySorted tlt l -> NoDup l.
Proof.
  induction 1 as [|x l Hs IH Hf]; constructor; [|exact IH].
  intros Hin. rewrite Forall_forall in Hf. exact (tlt_irrefl _ (Hf _ Hin)).
Qed.

Lemma sorted_unique l l' :
  StronglySorted tlt l -> StronglySorted tlt l' -> (forall x, In x l <-> In x l') -> l = l'.
Proof.
  intros H; revert l'. induction H as [|x l Hs IH Hf]; intros l' H' E.
  - destruct l' as [|y l']; [reflexivity|]. exfalso. apply (proj2 (E y)). left; reflexivity.
  - destruct l' as [|y l']; [exfalso; apply (proj1 (E x)); left; reflexivity|].
    inversion H' as [|? ? Hs' Hf']; subst. rewrite Forall_forall in *.
    assert (x = y) as <-.
    { destruct (proj1 (E x) (or_introl eq_refl)) as [Ex|Hx]; [congruence|].
      destruct (proj2 (E y) (or_introl eq_refl)) as [Ey|Hy]; [congruence|].
      exfalso. apply (tlt_irrefl x). eapply trait_cmp_trans; [apply Hf, Hy|apply Hf', Hx]. }
    f_equal. apply IH; [exact Hs'|]. intros z. split; intros Hz.
    + destruct (proj1 (E z) (or_intror Hz)) as [<-|?]; [|assumption].
      exfalso. exact (tlt_irrefl _ (Hf _ Hz)).
    + destruct (proj2 (E z) (or_intror Hz)) as [<-|?]; [|assumption].
      exfalso. exact (tlt_irrefl _ (Hf' _ Hz)).
Qed.

Lemma sorted_drop_first l : StronglySorted tlt l -> In TDrop l -> exists l', l = TDrop :: l'.
Proof.
  intros H Hin. destruct H as [|x l Hs Hf]; [destruct Hin|].
  destruct Hin as [->|Hin]; [exists l; reflexivity|].
  rewrite Forall_forall in Hf. specialize (Hf _ Hin). unfold tlt in Hf. destruct x; discriminate.
Qed.

(** ** Trait maps *)

Lemma tm_get_remove_same k m : tm_get k (tm_remove k m) = None.
Proof.
  induction m as [|[k' d] m IH]; cbn; [reflexivity|].
  destruct (trait_eqb k k') eqn:E; cbn; [exact IH|]. rewrite E. exact IH.
Qed.

Lemma tm_get_remove_other k k' m : k <> k' -> tm_get k (tm_remove k' m) = tm_get k m.
Proof.
  intros Hne. induction m as [|[k2 d] m IH]; cbn; [reflexivity|].
  destruct (trait_eqb k' k2) eqn:E; cbn.
  - apply trait_eqb_eq in E; subst k2. rewrite (proj2 (trait_eqb_neq k k') Hne). exact IH.
  - destruct (trait_eqb k k2); [reflexivity|exact IH].
Qed.

Lemma tm_remove_length k m : (List.length (tm_remove k m) <= List.length m)%nat.
Proof.
  induction m as [|[k' d] m IH]; cbn; [lia|]. destruct (trait_eqb k k'); cbn; lia.
Qed.

Lemma tm_remove_shorter k m d :
  tm_get k m = Some d -> (List.length (tm_remove k m) < List.length m)%nat.
Proof.
  induction m as [|[k' d'] m IH]; cbn; [discriminate|].
  destruct (trait_eqb k k') eqn:E; cbn; intros H.
  - pose proof (tm_remove_length k m). lia.
  - specialize (IH H). lia.
Qed.

Lemma tm_get_in k m d : tm_get k m = Some d -> In k (map fst m).
Proof.
  induction m as [|[k' d'] m IH]; cbn; [discriminate|].
  destruct (trait_eqb k k') eqn:E; intros H.
  - left. apply trait_eqb_eq in E. auto.
  - right. apply IH; exact H.
Qed.

Lemma tm_get_not_in k m : ~ In k (map fst m) -> tm_get k m = None.
Proof.
  induction m as [|[k' d'] m IH]; cbn; [reflexivity|]. intros H.
  rewrite (proj2 (trait_eqb_neq k k')); [apply IH; tauto|]. intros ->. tauto.
Qed.

(** ** Reachability *)

Definition edge (m : trait_map) (a b : trait) : Prop :=
  exists d, tm_get a m = Some d /\ In b (td_supers d).

Definition reach (m : trait_map) : trait -> trait -> Prop := clos_trans trait (edge m).

Lemma reach_first m a x :
  reach m a x <-> exists b, edge m a b /\ (x = b \/ reach m b x).
Proof.
  split.
  - intros H. apply clos_trans_t1n in H. destruct H as [y H|y z H1 H2].
    + exists y; auto.
    + exists y; split; [exact H1|right; apply clos_t1n_trans; exact H2].
  - intros (b & He & [->|Hr]); [apply t_step; exact He|].
    eapply t_trans; [apply t_step; exact He|exact Hr].
Qed.

Lemma oconcat_ret {A B} (f : A -> outcome (list B)) l r :
  oconcat f l = Ret r ->
  (forall y, In y l -> exists ry, f y = Ret ry)
  /\ (forall x, In x r <-> exists y ry, In y l /\ f y = Ret ry /\ In x ry).
Proof.
  revert r. induction l as [|a l IH]; cbn; intros r H.
  - inversion H; subst. split; [intros y []|]. intros x; cbn; split; [intros []|].
    intros (y & ry & [] & _).
  - destruct (f a) as [ra|?|?|] eqn:Ea; cbn in H; try discriminate.
    destruct (oconcat f l) as [rl|?|?|] eqn:El; cbn in H; try discriminate.
    inversion H; subst. destruct (IH _ eq_refl) as [H1 H2]. split.
    + intros y [<-|Hy]; [exists ra; exact Ea|apply H1; exact Hy].
    + intros x. rewrite in_app_iff, H2. split.
      * intros [Hx|(y & ry & Hy & Ey & Hx)].
        -- exists a, ra; auto.
        -- exists y, ry; auto.
      * intros (y & ry & [<-|Hy] & Ey & Hx).
        -- left. rewrite Ea in Ey. inversion Ey; subst; exact Hx.
        -- right. exists y, ry; auto.
Qed.

Lemma oconcat_total {A B} (f : A -> outcome (list B)) l :
  (forall y, In y l -> exists ry, f y = Ret ry) -> exists r, oconcat f l = Ret r.
Proof.
  induction l as [|a l IH]; intros H; cbn; [exists []; reflexivity|].
  destruct (H a (or_introl eq_refl)) as (ra & ->). cbn.
  destruct IH as (r & ->); [intros y Hy; apply H; right; exact Hy|].
  exists (ra ++ r); reflexivity.
Qed.

Lemma union_children_in n k m r :
  union_children n k m = Ret r -> forall x, In x r <-> reach m k x.
Proof.
  revert k r. induction n as [|n IH]; intros k r H x; cbn in H; [discriminate|].
  destruct (tm_get k m) as [d|] eqn:E.
  - destruct (oconcat _ (td_supers d)) as [rc|?|?|] eqn:Ec; cbn in H; try discriminate.
    inversion H; subst; clear H. destruct (oconcat_ret _ _ _ Ec) as [H1 H2].
    rewrite set_extend_in, set_collect_in, H2, reach_first. split.
    + intros [Hx|(y & ry & Hy & Ey & Hx)].
      * exists x; split; [exists d; auto|left; reflexivity].
      * exists y; split; [exists d; auto|right]. apply (IH _ _ Ey). exact Hx.
    + intros (b & (d' & E' & Hb) & Hx). rewrite E in E'; inversion E'; subst d'.
      destruct Hx as [->|Hx]; [left; exact Hb|right].
      destruct (H1 b Hb) as (ry & Ey). exists b, ry. repeat split; auto. apply (IH _ _ Ey). exact Hx.
  - inversion H; subst. cbn. rewrite reach_first. split; [intros []|].
    intros (b & (d' & E' & Hb) & _). congruence.
Qed.

(** Chains of supertraits. *)
Fixpoint chain (m : trait_map) (k : trait) (l : list trait) : Prop :=
  match l with
  | [] => True
  | k' :: l' => k' = k /\ In k (map fst m) /\ exists s, (l' = [] \/ edge m k s) /\ chain m s l'
  end.

Lemma union_children_long n k m :
  (forall r, union_children n k m <> Ret r) ->
  exists l, List.length l = n /\ chain m k l.
Proof.
  revert k. induction n as [|n IH]; intros k H; [exists []; cbn; auto|].
  cbn in H. destruct (tm_get k m) as [d|] eqn:E; [|exfalso; apply (H []); reflexivity].
  assert (Hs : exists s, In s (td_supers d) /\ forall r, union_children n s m <> Ret r).
  { destruct (oconcat (fun s => union_children n s m) (td_supers d)) as [rc|?|?|] eqn:Ec.
    - exfalso. eapply H. reflexivity.
    - clear H. induction (td_supers d) as [|a l IHl]; cbn in Ec; [discriminate|].
      destruct (union_children n a m) as [ra|?|?|] eqn:Ea; cbn in Ec;
        try (exists a; split; [left; reflexivity|intros r; rewrite Ea; discriminate]).
      destruct (oconcat (fun s => union_children n s m) l) eqn:El; cbn in Ec; try discriminate.
      destruct (IHl Ec) as (s & Hs & Hr). exists s; split; [right; exact Hs|exact Hr].
    - clear H. induction (td_supers d) as [|a l IHl]; cbn in Ec; [discriminate|].
      destruct (union_children n a m) as [ra|?|?|] eqn:Ea; cbn in Ec;
        try (exists a; split; [left; reflexivity|intros r; rewrite Ea; discriminate]).
      destruct (oconcat (fun s => union_children n s m) l) eqn:El; cbn in Ec; try discriminate.
      destruct (IHl Ec) as (s & Hs & Hr). exists s; split; [right; exact Hs|exact Hr].
    - clear H. induction (td_supers d) as [|a l IHl]; cbn in Ec; [discriminate|].
      destruct (union_children n a m) as [ra|?|?|] eqn:Ea; cbn in Ec;
        try (exists a; split; [left; reflexivity|intros r; rewrite Ea; discriminate]).
      destruct (oconcat (fun s => union_children n s m) l) eqn:El; cbn in Ec; try discriminate.
      destruct (IHl eq_refl) as (s & Hs & Hr). exists s; split; [right; exact Hs|exact Hr]. }
  destruct Hs as (s & Hs & Hr). destruct (IH s Hr) as (l & Hl & Hc).
  exists (k :: l). split; [cbn; lia|]. cbn. split; [reflexivity|].
  split; [eapply tm_get_in; exact E|]. exists s. split; [right; exists d; auto|exact Hc].
Qed.

Definition acyclic_map (m : trait_map) : Prop := forall t, ~ reach m t t.

Lemma chain_facts m k l :
  acyclic_map m -> chain m k l ->
  NoDup l /\ incl l (map fst m) /\ forall x, In x l -> x = k \/ reach m k x.
Proof.
  intros Ha. revert k. induction l as [|a l IH]; intros k H.
  - split; [constructor|]. split; intros x [].
  - cbn in H. destruct H as (-> & Hk & s & He & Hc). destruct (IH s Hc) as (H1 & H2 & H3).
    assert (H4 : forall x, In x l -> reach m k x).
    { intros x Hx. destruct He as [->|He]; [destruct Hx|]. apply reach_first. exists s.
      split; [exact He|]. apply H3; exact Hx. }
    split; [|split].
    + constructor; [|exact H1]. intros Hin. exact (Ha _ (H4 _ Hin)).
    + intros x [<-|Hx]; [exact Hk|apply H2; exact Hx].
    + intros x [<-|Hx]; [left; reflexivity|right; apply H4; exact Hx].
Qed.

Lemma union_children_total n k m :
  acyclic_map m -> (List.length m < n)%nat -> exists r, union_children n k m = Ret r.
Proof.
  intros Ha Hn.
  destruct (union_children n k m) as [r|?|?|] eqn:E; [exists r; reflexivity| | |]; exfalso;
    (destruct (union_children_long n k m) as (l & Hl & Hc);
     [intros r; rewrite E; discriminate|];
     destruct (chain_facts m k l Ha Hc) as (H1 & H2 & _);
     pose proof (NoDup_incl_length H1 H2) as H3; rewrite map_length in H3; lia).
Qed.

(** ** Flattening *)

Lemma edge_remove_mono k m a b : edge (tm_remove k m) a b -> edge m a b.
Proof.
  intros (d & E & Hb). destruct (trait_dec a k) as [->|Hne].
  - rewrite tm_get_remove_same in E. discriminate.
  - rewrite tm_get_remove_other in E by exact Hne. exists d; auto.
Qed.

Lemma reach_mono m m' : (forall a b, edge m a b -> edge m' a b) ->
  forall a b, reach m a b -> reach m' a b.
Proof.
  intros H a b Hr. induction Hr as [x y He|x y z _ IH1 _ IH2].
  - apply t_step, H, He.
  - eapply t_trans; eauto.
Qed.

Lemma reach_incl m m' : (forall a b, edge m a b -> reach m' a b) ->
  forall a b, reach m a b -> reach m' a b.
Proof.
  intros H a b Hr. induction Hr as [x y He|x y z _ IH1 _ IH2]; [apply H, He|].
  eapply t_trans; eauto.
Qed.

(** A walk that never comes back to [k] does not need the entry of [k]. *)
Lemma reach_avoid k m s x :
  s <> k -> ~ reach m s k -> reach m s x -> reach (tm_remove k m) s x.
Proof.
  intros Hs Hk Hr. apply clos_trans_t1n in Hr. induction Hr as [s y He|s y z He Hyz IH].
  - apply t_step. destruct He as (d & E & Hb). exists d.
    rewrite tm_get_remove_other by exact Hs. auto.
  - assert (He' : edge (tm_remove k m) s y).
    { destruct He as (d & E & Hb). exists d. rewrite tm_get_remove_other by exact Hs. auto. }
    eapply t_trans; [apply t_step; exact He'|]. apply IH.
    + intros ->. apply Hk. apply t_step; exact He.
    + intros Hyk. apply Hk. eapply t_trans; [apply t_step; exact He|exact Hyk].
Qed.

Lemma flatten_one depth it m :
  acyclic_map m -> (List.length m < depth)%nat ->
  forall d, tm_get (trait_of_name (it_name it)) m = Some d ->
  exists ss,
    flatten_inheritance depth it m
    = Ret ((trait_of_name (it_name it), TraitData (td_path d) (td_methods d) ss)
           :: tm_remove (trait_of_name (it_name it)) m)
    /\ StronglySorted tlt ss
    /\ forall x, In x ss <-> reach m (trait_of_name (it_name it)) x.
Proof.
  intros Ha Hd d E. unfold flatten_inheritance. set (k := trait_of_name (it_name it)) in *.
  rewrite E. set (m' := tm_remove k m).
  assert (Ha' : acyclic_map m').
  { intros t Ht. apply (Ha t). eapply reach_mono; [|exact Ht]. apply edge_remove_mono. }
  assert (Hd' : (List.length m' < depth)%nat).
  { pose proof (tm_remove_length k m). fold m' in H. lia. }
  destruct (oconcat_total (fun s => let! r := union_children depth s m' in Ret (r ++ [s]))
              (td_supers d)) as (ss & Es).
  { intros s _. destruct (union_children_total depth s m' Ha' Hd') as (r & ->). cbn.
    exists (r ++ [s]); reflexivity. }
  rewrite Es. cbn [obind]. unfold m' at 1. rewrite tm_get_remove_same. cbn [assert_ obind].
  exists (set_collect ss). split; [reflexivity|]. split; [apply set_collect_sorted|].
  intros x. rewrite set_collect_in. destruct (oconcat_ret _ _ _ Es) as [H1 H2]. rewrite H2.
  rewrite reach_first. split.
  - intros (s & rs & Hs & Er & Hx).
    destruct (union_children depth s m') as [r|?|?|] eqn:Eu; cbn in Er; try discriminate.
    inversion Er; subst rs. exists s. split; [exists d; auto|].
    apply in_app_iff in Hx. destruct Hx as [Hx|[Hx|[]]]; [right|left; auto].
    apply (union_children_in _ _ _ _ Eu) in Hx. eapply reach_mono; [|exact Hx].
    apply edge_remove_mono.
  - intros (s & (d' & E' & Hs) & Hx). rewrite E in E'; inversion E'; subst d'.
    destruct (H1 s Hs) as (rs & Er). exists s, rs. split; [exact Hs|]. split; [exact Er|].
    destruct (union_children depth s m') as [r|?|?|] eqn:Eu; cbn in Er; try discriminate.
    inversion Er; subst rs. apply in_app_iff. destruct Hx as [->|Hx]; [right; left; reflexivity|].
    left. apply (union_children_in _ _ _ _ Eu).
    assert (Hks : edge m k s) by (exists d; auto).
    apply reach_avoid; [| |exact Hx].
    + intros ->. apply (Ha k). apply t_step; exact Hks.
    + intros Hsk. apply (Ha k). eapply t_trans; [apply t_step; exact Hks|exact Hsk].
Qed.

Record flat_inv (m0 m : trait_map) : Prop := FlatInv {
  fi_reach : forall a b, reach m a b <-> reach m0 a b;
  fi_len : (List.length m <= List.length m0)%nat;
  fi_data : forall k, match tm_get k m, tm_get k m0 with
                      | Some d, Some d0 => td_path d = td_path d0 /\ td_methods d = td_methods d0
                      | None, None => True
                      | _, _ => False
                      end
}.

Lemma flat_inv_refl m : flat_inv m m.
Proof.
  split; [reflexivity|lia|]. intros k. destruct (tm_get k m); auto.
Qed.

Lemma flatten_all_facts depth m0 : acyclic_map m0 -> (List.length m0 < depth)%nat ->
  forall its m,
  flat_inv m0 m ->
  (forall it, In it its -> exists d, tm_get (trait_of_name (it_name it)) m0 = Some d) ->
  exists m',
    flatten_all depth its m = Ret m'
    /\ flat_inv m0 m'
    /\ (forall k, ~ In k (map (fun it => trait_of_name (it_name it)) its) ->
          tm_get k m' = tm_get k m)
    /\ (forall it, In it its ->
          exists d, tm_get (trait_of_name (it_name it)) m' = Some d
                    /\ StronglySorted tlt (td_supers d)
                    /\ forall x, In x (td_supers d) <-> reach m0 (trait_of_name (it_name it)) x).
Proof.
  intros Ha Hlen its. induction its as [|it its IH]; intros m Hi Hits.
  - exists m. cbn. split; [reflexivity|]. split; [exact Hi|]. split; [reflexivity|]. intros it [].
  - assert (Ham : acyclic_map m) by (intros t Ht; apply (Ha t); apply (fi_reach _ _ Hi); exact Ht).
    set (k := trait_of_name (it_name it)).
    assert (Hk : exists d, tm_get k m = Some d).
    { destruct (Hits it (or_introl eq_refl)) as (d0 & E0). fold k in E0.
      pose proof (fi_data _ _ Hi k) as Hd. rewrite E0 in Hd.
      destruct (tm_get k m) as [d|]; [exists d; reflexivity|destruct Hd]. }
    destruct Hk as (d & Ed).
    assert (Hl : (List.length m < depth)%nat) by (pose proof (fi_len _ _ Hi); lia).
    destruct (flatten_one depth it m Ham Hl d Ed) as (ss & Ef & Hs & Hx). fold k in Ef, Hx.
    cbn [flatten_all]. rewrite Ef. cbn [obind].
    set (m1 := (k, TraitData (td_path d) (td_methods d) ss) :: tm_remove k m).
    assert (Hget : forall k', tm_get k' m1
              = if trait_eqb k' k then Some (TraitData (td_path d) (td_methods d) ss)
                else tm_get k' m).
    { intros k'. unfold m1. cbn. destruct (trait_eqb k' k) eqn:E; [reflexivity|].
      apply tm_get_remove_other. apply trait_eqb_neq; exact E. }
    assert (Hi1 : flat_inv m0 m1).
    { split.
      - intros a b. rewrite <- (fi_reach _ _ Hi a b). split.
        + apply reach_incl. intros u v (d' & E' & Hv). rewrite Hget in E'.
          destruct (trait_eqb u k) eqn:Eu.
          * apply trait_eqb_eq in Eu; subst u. inversion E'; subst d'. apply Hx; exact Hv.
          * apply t_step. exists d'; auto.
        + apply reach_mono. intros u v (d' & E' & Hv). destruct (trait_eqb u k) eqn:Eu.
          * pose proof Eu as Eu'. apply trait_eqb_eq in Eu'. subst u.
            exists (TraitData (td_path d) (td_methods d) ss). rewrite Hget, Eu.
            split; [reflexivity|]. cbn. apply Hx. apply t_step. exists d'; auto.
          * exists d'. rewrite Hget, Eu. auto.
      - unfold m1. cbn. pose proof (tm_remove_shorter k m d Ed). pose proof (fi_len _ _ Hi). lia.
      - intros k'. rewrite Hget. pose proof (fi_data _ _ Hi k') as Hd.
        destruct (trait_eqb k' k) eqn:E; [|exact Hd].
        apply trait_eqb_eq in E; subst k'. rewrite Ed in Hd. exact Hd. }
    destruct (IH m1 Hi1) as (m' & E' & Hi' & Hother & Hthis).
    { intros it' Hit'. apply Hits. right; exact Hit'. }
    exists m'. split; [exact E'|]. split; [exact Hi'|]. split.
    + intros k' Hk'. cbn in Hk'. rewrite Hother by tauto. rewrite Hget.
      rewrite (proj2 (trait_eqb_neq k' k)); [reflexivity|]. intros ->. apply Hk'. left; reflexivity.
    + intros it' [<-|Hit']; [|apply Hthis; exact Hit'].
      destruct (in_dec trait_dec k (map (fun it => trait_of_name (it_name it)) its)) as [Hin|Hnin].
      * apply in_map_iff in Hin. destruct Hin as (it2 & E2 & Hit2).
        destruct (Hthis it2 Hit2) as (d2 & H2). fold k. rewrite E2 in H2. exists d2; exact H2.
      * fold k. exists (TraitData (td_path d) (td_methods d) ss). rewrite Hother by exact Hnin.
        rewrite Hget, trait_eqb_refl. cbn. split; [reflexivity|]. split; [exact Hs|].
        intros x. rewrite Hx. apply (fi_reach _ _ Hi).
Qed.
