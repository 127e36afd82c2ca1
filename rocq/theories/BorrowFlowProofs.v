(** * BorrowFlowProofs: every run of an accepted graph is an accepted program of Borrow.v. *)

From Coq Require Import String List Arith Bool Lia.
Import ListNotations.
From Verif Require Import Borrow BorrowSpec BorrowProofs BorrowFlow.

Lemma mem_in : forall x l, mem x l = true <-> In x l.
Proof.
  intros x l. unfold mem. rewrite existsb_exists. split.
  - intros (y & H & E). apply Nat.eqb_eq in E. subst y. exact H.
  - intros H. exists x. split; [exact H|apply Nat.eqb_refl].
Qed.

Lemma walk_cons : forall g l l0 path, walk g l (l0 :: path) ->
  l0 = l /\ exists n, nth_error (g_nodes g) l = Some n /\
    (path = [] \/ exists l', In l' (n_next n) /\ walk g l' path).
Proof.
  intros g l l0 path H. inversion H; subst.
  - split; [reflexivity|]. eauto.
  - split; [reflexivity|]. exists n. split; [assumption|]. right. eauto.
Qed.

Lemma nodes_ok_at : forall g known here nds l nd,
  nodes_ok g known here nds = true -> nth_error nds l = Some nd ->
  exists pt, nth_error here l = Some pt /\ node_ok g known pt nd = true.
Proof.
  intros g known. induction here as [|pt here IH]; intros [|n nds] l nd H E; try discriminate.
  - destruct l; discriminate.
  - cbn [nodes_ok] in H. apply andb_prop in H. destruct H as [H1 H2].
    destruct l as [|l]; cbn in E.
    + injection E as <-. exists pt. split; [reflexivity|exact H1].
    + cbn. exact (IH nds l nd H2 E).
Qed.

Section Flow.
Context (g : graph) (known : list point) (Hsol : nodes_ok g known known (g_nodes g) = true).

Lemma at_node : forall l nd, nth_error (g_nodes g) l = Some nd ->
  exists pt, nth_error known l = Some pt /\ node_ok g known pt nd = true.
Proof. intros l nd. apply nodes_ok_at. exact Hsol. Qed.

Lemma next_live_in : forall nd l pt v,
  In l (n_next nd) -> nth_error known l = Some pt -> In v (p_live pt) -> In v (next_live known nd).
Proof.
  intros nd l pt v H E Hv. unfold next_live. apply in_flat_map. exists l. rewrite E. auto.
Qed.

(** ** A value used later on a run is in a local the compiler takes for live *)

Lemma upd_some : forall (now : nat -> option nat) d i v k,
  upd d (Some i) now v = Some k -> k <> i -> now v = Some k.
Proof.
  unfold upd. intros now d i v k H N. destruct (v =? d); [congruence|exact H].
Qed.
Lemma upd_none : forall (now : nat -> option nat) d v k,
  upd d None now v = Some k -> v <> d /\ now v = Some k.
Proof.
  unfold upd. intros now d v k H. destruct (v =? d) eqn:E; [discriminate|].
  apply Nat.eqb_neq in E. auto.
Qed.

Definition now_after (i : instr) (now : nat -> option nat) (n : nat) : nat -> option nat :=
  match i with
  | INew d => upd d (Some n) now
  | ICall d f x => upd d (Some n) (match f_passing f with ByValue => upd x None now | _ => now end)
  | IDrop x => match now x with Some _ => upd x None now | None => now end
  | _ => now
  end.
Definition count_after (i : instr) (n : nat) : nat :=
  match i with INew _ | ICall _ _ _ => S n | _ => n end.

Lemma now_after_old : forall i now n v k,
  now_after i now n v = Some k -> k < n -> now v = Some k /\ defined i <> Some v.
Proof.
  intros i now n v k H L. destruct i as [d|d f x|x|x|x|x|]; cbn [now_after defined] in *;
    try (split; [exact H|discriminate]).
  - split; [apply (upd_some _ _ _ _ _ H); lia|]. intros [= ->]. unfold upd in H.
    rewrite Nat.eqb_refl in H. injection H as <-. lia.
  - split.
    + apply upd_some in H; [|lia]. destruct (f_passing f); try exact H. apply upd_none in H. apply H.
    + intros [= ->]. unfold upd in H. rewrite Nat.eqb_refl in H. injection H as <-. lia.
  - split; [|discriminate]. destruct (now x); [|exact H]. apply upd_none in H. apply H.
Qed.

(** One step of a run. *)
Definition emitted (i : instr) (now : nat -> option nat) : option (list stmt) :=
  match i with
  | INew d => match now d with None => Some [New] | Some _ => None end
  | ICall d f x => match now x, now d with Some k, None => Some [Call f k] | _, _ => None end
  | IGrow x => match now x with Some k => Some [Grow k] | None => None end
  | IRead x => match now x with Some k => Some [Read k] | None => None end
  | IWrite x => match now x with Some k => Some [Write k] | None => None end
  | IDrop x => match now x with Some k => Some [Drop k] | None => Some [] end
  | INothing => Some []
  end.
Lemma trail_cons : forall now n l path nd, nth_error (g_nodes g) l = Some nd ->
  trail g now n (l :: path) =
  match emitted (n_do nd) now,
        trail g (now_after (n_do nd) now n) (count_after (n_do nd) n) path with
  | Some s, Some p => Some (s ++ p)
  | _, _ => None
  end.
Proof.
  intros now n l path nd E. cbn [trail]. rewrite E.
  destruct (n_do nd) as [d|d f x|x|x|x|x|]; cbn [emitted now_after count_after].
  - destruct (now d); [reflexivity|]. destruct (trail _ _ _ _); reflexivity.
  - destruct (now x); [|reflexivity]. destruct (now d); [reflexivity|].
    destruct (trail _ _ _ _); reflexivity.
  - destruct (now x); [|reflexivity]. destruct (trail _ _ _ _); reflexivity.
  - destruct (now x); [|reflexivity]. destruct (trail _ _ _ _); reflexivity.
  - destruct (now x); [|reflexivity]. destruct (trail _ _ _ _); reflexivity.
  - destruct (now x); destruct (trail _ _ _ _); reflexivity.
  - destruct (trail _ _ _ _); reflexivity.
Qed.

Lemma used_app : forall a b v, used_later (a ++ b) v = used_later a v || used_later b v.
Proof. intros. unfold used_later. apply existsb_app. Qed.

Lemma emitted_used : forall i now s k, emitted i now = Some s -> used_later s k = true ->
  exists x, touched_local i = Some x /\ now x = Some k.
Proof.
  intros i now s k E U.
  destruct i as [d|d f x|x|x|x|x|]; cbn [emitted touched_local] in *;
    repeat match goal with H : match ?o with _ => _ end = _ |- _ => destruct o eqn:? end;
    try discriminate; injection E as <-; cbn in U; try discriminate;
    rewrite orb_false_r in U; apply Nat.eqb_eq in U; subst; eauto.
Qed.

Lemma trail_live : forall path l now n p k pt,
  walk g l path -> trail g now n path = Some p -> nth_error known l = Some pt ->
  used_later p k = true -> k < n -> exists v, now v = Some k /\ In v (p_live pt).
Proof.
  induction path as [|l0 path IH]; intros l now n p k pt W T E U L.
  { injection T as <-. discriminate. }
  apply walk_cons in W. destruct W as (-> & nd & En & Hn).
  destruct (at_node l nd En) as (pt0 & E0 & Hok).
  rewrite E in E0. injection E0 as <-.
  unfold node_ok in Hok. apply andb_prop in Hok. destruct Hok as [Hok _].
  apply andb_prop in Hok. destruct Hok as [_ Hlive].
  unfold live_ok in Hlive. apply andb_prop in Hlive. destruct Hlive as [Ht Ha].
  rewrite (trail_cons now n l path nd En) in T.
  destruct (emitted (n_do nd) now) as [s|] eqn:Es; [|discriminate].
  destruct (trail g _ _ path) as [p'|] eqn:Ep; [|discriminate].
  injection T as <-. rewrite used_app in U. apply orb_prop in U. destruct U as [U|U].
  - destruct (emitted_used _ _ _ _ Es U) as (x & Hx & Hk).
    rewrite Hx in Ht. apply mem_in in Ht. eauto.
  - destruct Hn as [->|(l' & Hl' & W')].
    { injection Ep as <-. discriminate. }
    assert (exists pt', nth_error known l' = Some pt') as (pt' & E').
    { destruct path as [|l1 path]; [injection Ep as <-; discriminate|].
      apply walk_cons in W'. destruct W' as (_ & nd' & En' & _).
      destruct (at_node l' nd' En') as (pt' & ? & _). eauto. }
    destruct (IH l' _ _ _ k pt' W' Ep E' U) as (v & Hv & Hlv).
    { destruct (n_do nd); cbn [count_after]; lia. }
    destruct (now_after_old _ _ _ _ _ Hv L) as (Hv' & Hd).
    exists v. split; [exact Hv'|].
    rewrite forallb_forall in Ha. specialize (Ha v (next_live_in nd l' pt' v Hl' E' Hlv)).
    destruct (defined (n_do nd)) as [d|].
    + apply orb_prop in Ha. destruct Ha as [Ha|Ha]; [|apply mem_in; exact Ha].
      apply Nat.eqb_eq in Ha. congruence.
    + apply mem_in. exact Ha.
Qed.

(** ** What the compiler knows holds on every run *)

Record rel (now : nat -> option nat) (sg : list svar) (a : nat -> lvar) (lv : nat -> Prop) : Prop := Rel
  { r_full : forall v k, now v = Some k -> v < length (g_kinds g) /\ l_full (a v) = true;
    r_var : forall v k, now v = Some k ->
      exists b, nth_error sg k = Some b /\ s_gone b = false /\ nth_error (g_kinds g) v = Some (s_kind b);
    r_loans : forall v k b j m, now v = Some k -> lv v -> nth_error sg k = Some b ->
      In (j, m) (s_loans b) -> exists y, now y = Some j /\ In (y, m) (l_loans (a v));
    r_less : forall k b j m, nth_error sg k = Some b -> In (j, m) (s_loans b) -> j < k;
    r_empty : forall v, v < length (g_kinds g) -> now v = None -> l_empty (a v) = true;
    r_inj : forall v v' k, now v = Some k -> now v' = Some k -> v = v' }.

Lemma rel_mono : forall now sg a b (lv lv' : nat -> Prop),
  rel now sg a lv -> (forall v, lv' v -> lv v) ->
  (forall v, v < length (g_kinds g) -> covers (b v) (a v) = true) -> rel now sg b lv'.
Proof.
  intros now sg a b lv lv' [F V L S E I] Hl Hc.
  assert (Hc' : forall v, v < length (g_kinds g) ->
            (l_full (a v) = true -> l_full (b v) = true) /\
            (l_empty (a v) = true -> l_empty (b v) = true) /\
            forall x, In x (l_loans (a v)) -> In x (l_loans (b v))).
  { intros v Hv. specialize (Hc v Hv). unfold covers in Hc.
    apply andb_prop in Hc. destruct Hc as [Hc H3]. apply andb_prop in Hc. destruct Hc as [H1 H2].
    split; [|split].
    - destruct (l_full (a v)), (l_full (b v)); cbn in H1; congruence.
    - destruct (l_empty (a v)), (l_empty (b v)); cbn in H2; congruence.
    - intros x Hx. rewrite forallb_forall in H3. specialize (H3 x Hx).
      apply existsb_exists in H3. destruct H3 as ((y, m) & Hy & Ex).
      unfold loan_eqb in Ex. apply andb_prop in Ex. destruct Ex as [Ex1 Ex2].
      apply Nat.eqb_eq in Ex1. apply Bool.eqb_prop in Ex2. destruct x; cbn in *. subst. exact Hy. }
  constructor; auto.
  - intros v k H. destruct (F v k H) as (H1 & H2). split; [exact H1|].
    apply (Hc' v H1). exact H2.
  - intros v k b0 j m H Hv Hb Hj. destruct (F v k H) as (H1 & _).
    destruct (L v k b0 j m H (Hl v Hv) Hb Hj) as (y & Hy & Hi).
    exists y. split; [exact Hy|]. apply (Hc' v H1). exact Hi.
  - intros v Hv H. apply (Hc' v Hv). auto.
Qed.

Lemma has_kind_at : forall x k, has g x k = true -> nth_error (g_kinds g) x = Some k.
Proof.
  unfold has. intros x k H. destruct (nth_error (g_kinds g) x) as [k'|]; [|discriminate].
  apply kind_eqb_eq in H. congruence.
Qed.

Lemma no_conflict_out : forall a live_after x ex v m,
  no_conflict a live_after x ex = true -> In v live_after -> l_full (var_at a v) = true ->
  In (x, m) (l_loans (var_at a v)) -> ex || m = true -> False.
Proof.
  unfold no_conflict. intros a la x ex v m H Hv Hf Hl Hm. rewrite forallb_forall in H.
  specialize (H v Hv). rewrite Hf in H. cbn in H. apply negb_true_iff in H.
  assert (existsb (conflicts x ex) (l_loans (var_at a v)) = true); [|congruence].
  apply existsb_exists. exists (x, m). split; [exact Hl|]. unfold conflicts. cbn.
  rewrite Nat.eqb_refl. exact Hm.
Qed.

Lemma free_from_in : forall sg n rest x ex,
  (forall k b, nth_error sg k = Some b -> used_later rest (n + k) = true ->
     forall m, In (x, m) (s_loans b) -> ex || m = true -> False) ->
  free_from n sg rest x ex = true.
Proof.
  induction sg as [|b sg IH]; intros n rest x ex H; [reflexivity|].
  cbn [free_from]. apply andb_true_intro. split.
  - apply negb_true_iff. destruct (used_later rest n) eqn:U; [|reflexivity]. cbn.
    destruct (existsb _ _) eqn:X; [|reflexivity]. exfalso.
    apply existsb_exists in X. destruct X as ((y, m) & Hi & Hc).
    unfold conflicts in Hc. cbn in Hc. apply andb_prop in Hc. destruct Hc as [Hy Hm].
    apply Nat.eqb_eq in Hy. subst y.
    apply (H 0 b eq_refl) with (m := m); auto. rewrite Nat.add_0_r. exact U.
  - apply IH. intros k b' Hb U m. apply (H (S k) b'); [exact Hb|].
    rewrite Nat.add_succ_r. exact U.
Qed.

Lemma nth_s_end : forall x sg k b, k <> x -> nth_error sg k = Some b ->
  nth_error (s_end x sg) k = Some b.
Proof.
  intros x sg k b N H. unfold s_end. destruct (nth_error sg x) as [c|]; [|exact H].
  rewrite nth_set. destruct (x =? k) eqn:E; [apply Nat.eqb_eq in E; congruence|exact H].
Qed.
Lemma s_end_loans : forall x sg k b, nth_error (s_end x sg) k = Some b ->
  exists c, nth_error sg k = Some c /\ s_loans c = s_loans b.
Proof.
  intros x sg k b H. unfold s_end in H. destruct (nth_error sg x) as [c|] eqn:E; [|eauto].
  rewrite nth_set in H. destruct (x =? k) eqn:Ex.
  - apply Nat.eqb_eq in Ex. subst k. rewrite E in H. injection H as <-. eauto.
  - eauto.
Qed.
Lemma length_s_end : forall x sg, length (s_end x sg) = length sg.
Proof. intros. unfold s_end. destruct (nth_error sg x); [apply length_set|reflexivity]. Qed.

(** Ending a value: no live local may borrow from it. *)
Lemma rel_end : forall now sg a (lv : nat -> Prop) x i,
  rel now sg a lv -> now x = Some i ->
  (forall v m, lv v -> l_full (a v) = true -> In (x, m) (l_loans (a v)) -> v = x) ->
  rel (upd x None now) (s_end i sg) (put x no_var a) lv.
Proof.
  intros now sg a lv x i [F V L S E I] Hx Hc. constructor.
  - intros v k H. apply upd_none in H. destruct H as (N & H). destruct (F v k H) as (H1 & H2).
    split; [exact H1|]. unfold put, upd. destruct (v =? x) eqn:Ev; [|exact H2].
    apply Nat.eqb_eq in Ev. contradiction.
  - intros v k H. apply upd_none in H. destruct H as (N & H).
    destruct (V v k H) as (b & H1 & H2). exists b. split; [|exact H2].
    apply nth_s_end; [|exact H1]. intros ->. apply N. exact (I v x i H Hx).
  - intros v k b j m H Hv Hb Hj. apply upd_none in H. destruct H as (N & H).
    apply s_end_loans in Hb. destruct Hb as (c & Hb & Hcl). rewrite <- Hcl in Hj.
    destruct (L v k c j m H Hv Hb Hj) as (y & Hy & Hi). exists y. unfold put, upd.
    destruct (v =? x) eqn:Ev; [apply Nat.eqb_eq in Ev; contradiction|].
    destruct (y =? x) eqn:Ey; [|auto]. apply Nat.eqb_eq in Ey. subst y. exfalso.
    apply N. apply (Hc v m Hv); [apply (F v k H)|exact Hi].
  - intros k b j m Hb Hj. apply s_end_loans in Hb. destruct Hb as (c & Hb & Hcl).
    rewrite <- Hcl in Hj. exact (S k c j m Hb Hj).
  - intros v Hv H. unfold put, upd in *. destruct (v =? x); [reflexivity|]. auto.
  - intros v v' k H H'. apply upd_none in H. apply upd_none in H'.
    apply (I v v' k); [apply H|apply H'].
Qed.

(** A new value for an empty local. *)
Lemma rel_def : forall now sg a (lv : nat -> Prop) d k loans loans',
  rel now sg a lv -> now d = None -> nth_error (g_kinds g) d = Some k ->
  (forall j m, In (j, m) loans -> exists y, now y = Some j /\ In (y, m) loans') ->
  rel (upd d (Some (length sg)) now) (sg ++ [SVar k false loans]) (put d (LVar true false loans') a)
      (fun v => lv v \/ v = d).
Proof.
  intros now sg a lv d k loans loans' [F V L S E I] Hd Hk Hl.
  assert (Lt : forall v i, now v = Some i -> i < length sg).
  { intros v i H. destruct (V v i H) as (b & H1 & _). apply nth_error_Some. congruence. }
  constructor.
  - intros v i H. unfold put, upd in *. destruct (v =? d) eqn:Ev; [|apply (F v i H)].
    apply Nat.eqb_eq in Ev. subst v. split; [|reflexivity]. apply nth_error_Some. congruence.
  - intros v i H. unfold upd in H. destruct (v =? d) eqn:Ev.
    + apply Nat.eqb_eq in Ev. subst v. injection H as <-. exists (SVar k false loans).
      rewrite nth_end, Nat.eqb_refl. auto.
    + destruct (V v i H) as (b & H1 & H2). exists b. split; [|exact H2].
      rewrite nth_end. pose proof (Lt v i H). destruct (i =? length sg) eqn:Ei; [|exact H1].
      apply Nat.eqb_eq in Ei. lia.
  - intros v i b j m H Hv Hb Hj. unfold put, upd in *. rewrite nth_end in Hb.
    destruct (v =? d) eqn:Ev.
    + injection H as <-. rewrite Nat.eqb_refl in Hb. injection Hb as <-. cbn in Hj |- *.
      destruct (Hl j m Hj) as (y & Hy & Hi). exists y. split; [|exact Hi].
      destruct (y =? d) eqn:Ey; [|exact Hy]. apply Nat.eqb_eq in Ey. congruence.
    + pose proof (Lt v i H). destruct (i =? length sg) eqn:Ei; [apply Nat.eqb_eq in Ei; lia|].
      destruct Hv as [Hv|Hv]; [|apply Nat.eqb_neq in Ev; contradiction].
      destruct (L v i b j m H Hv Hb Hj) as (y & Hy & Hi). exists y. split; [|exact Hi].
      destruct (y =? d) eqn:Ey; [|exact Hy]. apply Nat.eqb_eq in Ey. congruence.
  - intros i b j m Hb Hj. rewrite nth_end in Hb. destruct (i =? length sg) eqn:Ei.
    + apply Nat.eqb_eq in Ei. injection Hb as <-. cbn in Hj. destruct (Hl j m Hj) as (y & Hy & _).
      pose proof (Lt y j Hy). lia.
    + exact (S i b j m Hb Hj).
  - intros v Hv H. unfold put, upd in *. destruct (v =? d); [discriminate|]. auto.
  - intros v v' i H H'. unfold upd in *.
    destruct (v =? d) eqn:Ev, (v' =? d) eqn:Ev'.
    + apply Nat.eqb_eq in Ev. apply Nat.eqb_eq in Ev'. congruence.
    + injection H as <-. pose proof (Lt v' _ H'). lia.
    + injection H' as <-. pose proof (Lt v _ H). lia.
    + exact (I v v' i H H').
Qed.

Lemma has_kind_in : forall now sg a lv x i k,
  rel now sg a lv -> now x = Some i -> has g x k = true -> has_kind sg i k = true.
Proof.
  intros now sg a lv x i k R Hx Hk. destruct (r_var _ _ _ _ R x i Hx) as (b & Hb & _ & Hkb).
  apply has_kind_at in Hk. unfold has_kind. rewrite Hb. rewrite Hk in Hkb. injection Hkb as <-.
  destruct k; reflexivity.
Qed.
Lemma has_bound : forall x k, has g x k = true -> x < length (g_kinds g).
Proof. intros x k H. apply has_kind_at in H. apply nth_error_Some. congruence. Qed.

(** The next part of the run uses only values in live locals. *)
Definition uses_live (i : instr) (now : nat -> option nat) (n : nat) (rest : list stmt)
    (live_after : list nat) : Prop :=
  forall k, used_later rest k = true -> k < n ->
  exists v, now_after i now n v = Some k /\ In v live_after.

Lemma access_in : forall now sg pt nd rest x i ex,
  rel now sg (var_at (p_vars pt)) (fun v => In v (p_live pt)) ->
  node_ok g known pt nd = true ->
  uses_live (n_do nd) now (length sg) rest (next_live known nd) ->
  now x = Some i -> no_conflict (p_vars pt) (next_live known nd) x ex = true ->
  may_access sg rest i ex = true.
Proof.
  intros now sg pt nd rest x i ex R Hok Hu Hx Hc.
  destruct (r_var _ _ _ _ R x i Hx) as (b & Hb & Hg & _).
  unfold may_access. rewrite Hb, Hg. cbn. apply free_from_in. cbn. intros k c Hk U m Hi Hm.
  assert (L : k < length sg) by (apply nth_error_Some; congruence).
  destruct (Hu k U L) as (v & Hv & Hlv).
  destruct (now_after_old _ _ _ _ _ Hv L) as (Hv' & Hd).
  unfold node_ok in Hok. apply andb_prop in Hok. destruct Hok as [Hok _].
  apply andb_prop in Hok. destruct Hok as [_ Hlive].
  unfold live_ok in Hlive. apply andb_prop in Hlive. destruct Hlive as [_ Ha].
  rewrite forallb_forall in Ha. specialize (Ha v Hlv).
  assert (Hlv' : In v (p_live pt)).
  { destruct (defined (n_do nd)) as [d|].
    - apply orb_prop in Ha. destruct Ha as [Ha|Ha]; [|apply mem_in; exact Ha].
      apply Nat.eqb_eq in Ha. congruence.
    - apply mem_in. exact Ha. }
  destruct (r_loans _ _ _ _ R v k c i m Hv' Hlv' Hk Hi) as (y & Hy & Hil).
  assert (y = x) by exact (r_inj _ _ _ _ R y x i Hy Hx). subst y.
  apply (no_conflict_out _ _ _ _ v m Hc Hlv); auto. apply (r_full _ _ _ _ R v k Hv').
Qed.

(** A node whose rules hold emits a statement, and the statement is allowed. *)
Lemma node_emits : forall now sg pt nd,
  rel now sg (var_at (p_vars pt)) (fun v => In v (p_live pt)) ->
  node_ok g known pt nd = true -> exists s, emitted (n_do nd) now = Some s.
Proof.
  intros now sg pt nd R Hok. unfold node_ok in Hok. apply andb_prop in Hok. destruct Hok as [Hok _].
  apply andb_prop in Hok. destruct Hok as [Hi _].
  assert (Hfull : forall x k ex, has g x k = true ->
            access (p_vars pt) (next_live known nd) x ex = true -> exists i, now x = Some i).
  { intros x k ex Hh Ha. destruct (now x) as [i|] eqn:E; [eauto|]. exfalso.
    apply andb_prop in Ha. destruct Ha as [Ha _].
    rewrite (r_empty _ _ _ _ R x (has_bound x k Hh) E) in Ha. discriminate. }
  assert (Hempty : forall x, negb (l_full (var_at (p_vars pt) x)) = true -> now x = None).
  { intros x Hn. destruct (now x) as [i|] eqn:E; [|reflexivity].
    rewrite (proj2 (r_full _ _ _ _ R x i E)) in Hn. discriminate. }
  destruct (n_do nd) as [d|d f x|x|x|x|x|]; cbn [emitted instr_ok] in *.
  - apply andb_prop in Hi. rewrite (Hempty d) by apply Hi. eauto.
  - repeat (apply andb_prop in Hi; destruct Hi as [Hi ?]). rewrite (Hempty d) by assumption.
    destruct (Hfull x _ _ Hi ltac:(eassumption)) as (i & ->). eauto.
  - apply andb_prop in Hi. destruct Hi. destruct (Hfull x _ _ ltac:(eassumption) ltac:(eassumption)) as (i & ->). eauto.
  - apply andb_prop in Hi. destruct Hi as [Hi ?]. apply orb_prop in Hi.
    destruct Hi as [Hi|Hi]; destruct (Hfull x _ _ Hi ltac:(eassumption)) as (i & ->); eauto.
  - apply andb_prop in Hi. destruct Hi. destruct (Hfull x _ _ ltac:(eassumption) ltac:(eassumption)) as (i & ->). eauto.
  - destruct (now x); eauto.
  - eauto.
Qed.

Lemma node_allowed : forall now sg pt nd s rest,
  rel now sg (var_at (p_vars pt)) (fun v => In v (p_live pt)) ->
  node_ok g known pt nd = true -> emitted (n_do nd) now = Some [s] ->
  uses_live (n_do nd) now (length sg) rest (next_live known nd) ->
  stmt_ok sg s rest = true.
Proof.
  intros now sg pt nd s rest R Hok He Hu.
  assert (Hacc := access_in now sg pt nd rest).
  pose proof Hok as Hi. unfold node_ok in Hi. apply andb_prop in Hi. destruct Hi as [Hi _].
  apply andb_prop in Hi. destruct Hi as [Hi _].
  destruct (n_do nd) as [d|d f x|x|x|x|x|] eqn:En; cbn [emitted instr_ok] in *;
    repeat match goal with H : match ?o with _ => _ end = _ |- _ => destruct o eqn:? end;
    try discriminate; injection He as <-; cbn [stmt_ok]; unfold access in Hi.
  - reflexivity.
  - repeat (apply andb_prop in Hi; destruct Hi as [Hi ?]).
    match goal with H : _ && _ = true |- _ => apply andb_prop in H; destruct H end.
    rewrite (has_kind_in _ _ _ _ x _ _ R ltac:(eassumption) Hi). cbn.
    rewrite <- En in Hacc, Hu. eapply Hacc; eauto.
  - apply andb_prop in Hi. destruct Hi as [Hi H]. apply andb_prop in H. destruct H.
    rewrite (has_kind_in _ _ _ _ x _ _ R ltac:(eassumption) Hi). cbn. eapply Hacc; eauto.
  - apply andb_prop in Hi. destruct Hi as [Hi H]. apply andb_prop in H. destruct H.
    apply andb_true_intro. split; [|eapply Hacc; eauto].
    apply orb_prop in Hi. destruct Hi as [Hi|Hi];
      rewrite (has_kind_in _ _ _ _ x _ _ R ltac:(eassumption) Hi); auto using orb_true_r.
  - apply andb_prop in Hi. destruct Hi as [Hi H]. apply andb_prop in H. destruct H.
    rewrite (has_kind_in _ _ _ _ x _ _ R ltac:(eassumption) Hi). cbn. eapply Hacc; eauto.
  - rewrite (proj2 (r_full _ _ _ _ R x _ ltac:(eassumption))) in Hi. eapply Hacc; eauto.
Qed.

(** What the compiler knows after the node holds after the statement. *)
Lemma rel_node : forall now sg pt nd s,
  rel now sg (var_at (p_vars pt)) (fun v => In v (p_live pt)) ->
  node_ok g known pt nd = true -> emitted (n_do nd) now = Some s ->
  rel (now_after (n_do nd) now (length sg)) (fold_left s_step s sg)
      (transfer (var_at (p_vars pt)) (n_do nd)) (fun v => In v (next_live known nd)) /\
  length (fold_left s_step s sg) = count_after (n_do nd) (length sg).
Proof.
  intros now sg pt nd s R Hok He.
  unfold node_ok in Hok. apply andb_prop in Hok. destruct Hok as [Hok _].
  apply andb_prop in Hok. destruct Hok as [Hi Hlive].
  unfold live_ok in Hlive. apply andb_prop in Hlive. destruct Hlive as [Ht Ha].
  rewrite forallb_forall in Ha.
  assert (Hla : forall v, In v (next_live known nd) -> defined (n_do nd) = Some v \/ In v (p_live pt)).
  { intros v Hv. specialize (Ha v Hv). destruct (defined (n_do nd)) as [d|].
    - apply orb_prop in Ha. destruct Ha as [Ha|Ha]; [|right; apply mem_in; exact Ha].
      apply Nat.eqb_eq in Ha. left. congruence.
    - right. apply mem_in. exact Ha. }
  assert (Hcov : forall b, covers b b = true).
  { intros b. unfold covers. destruct (l_full b), (l_empty b); cbn; apply forallb_forall; intros (y, m) Hy;
      apply existsb_exists; exists (y, m); (split; [exact Hy|]); unfold loan_eqb; cbn;
      rewrite Nat.eqb_refl, Bool.eqb_reflx; reflexivity. }
  assert (Same : rel now sg (var_at (p_vars pt)) (fun v => In v (next_live known nd) /\ In v (p_live pt))).
  { apply (rel_mono _ _ _ (var_at (p_vars pt)) _ _ R); [tauto|]. intros v _. apply Hcov. }
  (* ending [x] *)
  assert (End : forall x i, now x = Some i -> In x (p_live pt) ->
            no_conflict (p_vars pt) (next_live known nd) x true = true ->
            rel (upd x None now) (s_end i sg) (put x no_var (var_at (p_vars pt)))
                (fun v => In v (next_live known nd) /\ In v (p_live pt))).
  { intros x i Hx Hxl Hc.
    apply rel_end; [exact Same|exact Hx|]. intros v m (Hv & _) Hf Hm. exfalso.
    exact (no_conflict_out _ _ _ _ v m Hc Hv Hf Hm eq_refl). }
  assert (Def : forall now' sg' a d k loans loans',
            rel now' sg' a (fun v => In v (next_live known nd) /\ In v (p_live pt)) ->
            now' d = None -> nth_error (g_kinds g) d = Some k -> defined (n_do nd) = Some d ->
            length sg' = length sg ->
            (forall j m, In (j, m) loans -> exists y, now' y = Some j /\ In (y, m) loans') ->
            rel (upd d (Some (length sg)) now') (sg' ++ [SVar k false loans])
                (put d (LVar true false loans') a) (fun v => In v (next_live known nd)) /\
            length (sg' ++ [SVar k false loans]) = S (length sg)).
  { intros now' sg' a d k loans loans' R' Hd Hk Hdef Hlen Hl.
    split; [|rewrite app_length, Hlen; cbn; lia]. rewrite <- Hlen.
    apply (rel_mono _ _ _ (put d (LVar true false loans') a) _ (fun v => In v (next_live known nd))
             (rel_def _ _ _ _ d k loans loans' R' Hd Hk Hl)).
    - intros v Hv. destruct (Hla v Hv) as [H|H]; [right; congruence|left; auto].
    - intros v _. apply Hcov. }
  destruct (n_do nd) as [d|d f x|x|x|x|x|] eqn:En; cbn [emitted instr_ok now_after transfer count_after defined touched_local] in *;
    repeat match goal with H : match ?o with _ => _ end = Some s |- _ => destruct o eqn:? end;
    try discriminate; injection He as <-; cbn [fold_left s_step].
  - apply andb_prop in Hi. destruct Hi as [Hk _].
    apply Def; auto using has_kind_at. intros j m [].
  - apply mem_in in Ht.
    apply andb_prop in Hi. destruct Hi as [Hi Htie].
    apply andb_prop in Hi. destruct Hi as [Hi Hac].
    apply andb_prop in Hi. destruct Hi as [Hi _].
    apply andb_prop in Hi. destruct Hi as [_ Hk].
    apply andb_prop in Hac. destruct Hac as [_ Hac].
    match goal with H : now x = Some ?i |- _ => rename H into Hx; rename i into k end.
    match goal with H : now d = None |- _ => rename H into Hd end.
    destruct (r_var _ _ _ _ R x k Hx) as (b & Hb & _ & _).
    assert (Hl : forall j m, In (j, m) (s_loans b) ->
              exists y, now y = Some j /\ In (y, m) (l_loans (var_at (p_vars pt) x))).
    { intros j m Hj. exact (r_loans _ _ _ _ R x k b j m Hx Ht Hb Hj). }
    assert (Hlt : forall j m, In (j, m) (s_loans b) -> j < k).
    { intros j m Hj. exact (r_less _ _ _ _ R k b j m Hb Hj). }
    unfold loans_for. rewrite Hb.
    destruct (f_passing f) eqn:Ep.
    + apply Def; auto using has_kind_at. intros j m Hj.
      destruct (f_tie f); [|auto|destruct Hj]. destruct Hj as [Hj|Hj].
      * injection Hj as <- <-. exists x. split; [exact Hx|left; reflexivity].
      * destruct (Hl j m Hj) as (y & Hy & Hin). exists y. split; [exact Hy|right; exact Hin].
    + apply Def; auto using has_kind_at. intros j m Hj.
      destruct (f_tie f); [|auto|destruct Hj]. destruct Hj as [Hj|Hj].
      * injection Hj as <- <-. exists x. split; [exact Hx|left; reflexivity].
      * destruct (Hl j m Hj) as (y & Hy & Hin). exists y. split; [exact Hy|right; exact Hin].
    + apply Def; auto using has_kind_at, length_s_end.
      * unfold upd. destruct (d =? x); [reflexivity|exact Hd].
      * intros j m Hj. destruct (f_tie f); [discriminate| |destruct Hj].
        destruct (Hl j m Hj) as (y & Hy & Hin). exists y. split; [|exact Hin].
        unfold upd. destruct (y =? x) eqn:Ey; [|exact Hy]. apply Nat.eqb_eq in Ey. subst y.
        pose proof (Hlt j m Hj). rewrite Hx in Hy. injection Hy as <-. lia.
  - split; [|reflexivity]. apply (rel_mono _ _ _ (var_at (p_vars pt)) _ (fun v => In v (next_live known nd)) R); [|auto].
    intros v Hv. destruct (Hla v Hv) as [H|H]; [discriminate|exact H].
  - split; [|reflexivity]. apply (rel_mono _ _ _ (var_at (p_vars pt)) _ (fun v => In v (next_live known nd)) R); [|auto].
    intros v Hv. destruct (Hla v Hv) as [H|H]; [discriminate|exact H].
  - split; [|reflexivity]. apply (rel_mono _ _ _ (var_at (p_vars pt)) _ (fun v => In v (next_live known nd)) R); [|auto].
    intros v Hv. destruct (Hla v Hv) as [H|H]; [discriminate|exact H].
  - match goal with H : now x = Some ?i |- _ => rename H into Hx; rename i into k end.
    apply mem_in in Ht. split; [|apply length_s_end].
    rewrite (proj2 (r_full _ _ _ _ R x k Hx)) in Hi. cbn in Hi.
    apply (rel_mono _ _ _ (put x no_var (var_at (p_vars pt))) _ (fun v => In v (next_live known nd)) (End x k Hx Ht Hi)); [|auto].
    intros v Hv. destruct (Hla v Hv) as [H|H]; [discriminate|auto].
  - match goal with H : now x = None |- _ => rename H into Hx end.
    split; [|reflexivity].
    assert (R' : rel now sg (put x no_var (var_at (p_vars pt))) (fun v => In v (p_live pt))).
    { destruct R as [F V L S E I]. constructor; auto.
      - intros v k H. destruct (F v k H) as (H1 & H2). split; [exact H1|].
        unfold put, upd. destruct (v =? x) eqn:Ev; [apply Nat.eqb_eq in Ev; congruence|exact H2].
      - intros v k b j m H Hv Hb Hj. destruct (L v k b j m H Hv Hb Hj) as (y & Hy & Hin).
        exists y. split; [exact Hy|]. unfold put, upd.
        destruct (v =? x) eqn:Ev; [apply Nat.eqb_eq in Ev; congruence|exact Hin].
      - intros v Hv H. unfold put, upd. destruct (v =? x); [reflexivity|auto]. }
    apply (rel_mono _ _ _ (put x no_var (var_at (p_vars pt))) _ (fun v => In v (next_live known nd)) R'); [|auto].
    intros v Hv. destruct (Hla v Hv) as [H|H]; [discriminate|exact H].
  - split; [|reflexivity]. apply (rel_mono _ _ _ (var_at (p_vars pt)) _ (fun v => In v (next_live known nd)) R); [|auto].
    intros v Hv. destruct (Hla v Hv) as [H|H]; [discriminate|exact H].
Qed.

Lemma trail_accepted : forall path l now sg pt,
  walk g l path -> nth_error known l = Some pt ->
  rel now sg (var_at (p_vars pt)) (fun v => In v (p_live pt)) ->
  exists p, trail g now (length sg) path = Some p /\ accepted_from sg p = true.
Proof.
  induction path as [|l0 path IH]; intros l now sg pt W E R.
  { exists []. auto. }
  apply walk_cons in W. destruct W as (-> & nd & En & Hn).
  destruct (at_node l nd En) as (pt0 & E0 & Hok). rewrite E in E0. injection E0 as <-.
  destruct (node_emits now sg pt nd R Hok) as (s & Es).
  destruct (rel_node now sg pt nd s R Hok Es) as (R' & Hlen).
  rewrite (trail_cons now (length sg) l path nd En), Es, <- Hlen.
  assert (exists p, trail g (now_after (n_do nd) now (length sg)) (length (fold_left s_step s sg)) path = Some p
            /\ accepted_from (fold_left s_step s sg) p = true
            /\ uses_live (n_do nd) now (length sg) p (next_live known nd)) as (p & Tp & Ap & Up).
  { destruct Hn as [->|(l' & Hl' & W')].
    { exists []. split; [reflexivity|]. split; [reflexivity|]. intros k U. discriminate. }
    pose proof Hok as Hn. unfold node_ok in Hn. apply andb_prop in Hn. destruct Hn as [_ Hn].
    rewrite forallb_forall in Hn. specialize (Hn l' Hl').
    destruct (nth_error known l') as [pt'|] eqn:E'; [|discriminate].
    rewrite forallb_forall in Hn.
    destruct (IH l' (now_after (n_do nd) now (length sg)) (fold_left s_step s sg) pt' W' E') as (p & Tp & Ap).
    { apply (rel_mono _ _ _ (var_at (p_vars pt')) _ (fun v => In v (p_live pt')) R').
      - intros v Hv. exact (next_live_in nd l' pt' v Hl' E' Hv).
      - intros v Hv. apply Hn. apply in_seq. lia. }
    exists p. split; [exact Tp|]. split; [exact Ap|]. intros k U L.
    destruct (trail_live path l' _ _ p k pt' W' Tp E' U) as (v & Hv & Hi).
    { rewrite Hlen. destruct (n_do nd); cbn [count_after]; lia. }
    exists v. split; [exact Hv|]. exact (next_live_in nd l' pt' v Hl' E' Hi). }
  rewrite Tp. exists (s ++ p). split; [reflexivity|].
  destruct s as [|s0 [|s1 s]].
  - exact Ap.
  - cbn [app accepted_from]. rewrite (node_allowed now sg pt nd s0 p R Hok Es Up). exact Ap.
  - exfalso. clear - Es. destruct (n_do nd) as [d|d f x|x|x|x|x|]; cbn [emitted] in Es;
      repeat match goal with H : match ?o with _ => _ end = _ |- _ => destruct o end; discriminate.
Qed.

End Flow.

(** Every run of an accepted graph does an accepted sequence of statements. *)
Lemma accepts_runs : forall g path, accepts g -> walk g 0 path ->
  exists p, run_does g path p /\ accepted p = true.
Proof.
  intros g path (known & H) W. unfold solution in H. apply andb_prop in H. destruct H as [H0 Hs].
  destruct known as [|pt known]; [discriminate|].
  destruct (trail_accepted g (pt :: known) Hs path 0 (fun _ => None) [] pt W eq_refl) as (p & Tp & Ap).
  { constructor; try discriminate.
    - intros k b j m Hb. destruct k; discriminate.
    - intros v Hv _. rewrite forallb_forall in H0. apply H0. apply in_seq. lia. }
  exists p. split; [split; assumption|exact Ap].
Qed.

(** The functions a run calls are functions of the graph. *)
Lemma trail_calls : forall g ok path now n p, graph_calls g ok -> trail g now n path = Some p ->
  only_calls p ok.
Proof.
  intros g ok. induction path as [|l path IH]; intros now n p Hg T.
  { injection T as <-. intros f x []. }
  destruct (nth_error (g_nodes g) l) as [nd|] eqn:En.
  2:{ cbn [trail] in T. rewrite En in T. discriminate. }
  rewrite (trail_cons g now n l path nd En) in T.
  destruct (emitted (n_do nd) now) as [s|] eqn:Es; [|discriminate].
  destruct (trail g _ _ path) as [p'|] eqn:Ep; [|discriminate]. injection T as <-.
  intros f x Hi. apply in_app_or in Hi. destruct Hi as [Hi|Hi].
  - apply nth_error_In in En. destruct nd as [i nx]. cbn [n_do] in *.
    destruct i; cbn [emitted] in Es;
      repeat match goal with H : match ?o with _ => _ end = _ |- _ => destruct o end;
      try discriminate; injection Es as <-; try (destruct Hi as [Hi|[]]; try discriminate); [|destruct Hi|destruct Hi].
    injection Hi as <- _. exact (Hg _ _ _ _ En).
  - exact (IH _ _ _ Hg Ep f x Hi).
Qed.

Lemma c53_flow_partial_fact : forall g path,
  accepts g -> graph_calls g linked -> walk g 0 path ->
  exists p, run_does g path p /\
  whenever_used p (fun memory v => still_there memory v /\ data_alive memory v /\ table_alive memory v).
Proof.
  intros g path Ha Hg W. destruct (accepts_runs g path Ha W) as (p & Hp & A).
  exists p. split; [exact Hp|]. apply c53_partial_fact; [exact A|].
  exact (trail_calls g linked path _ _ p Hg (proj2 Hp)).
Qed.

Lemma c70_flow_partial_fact : forall g path,
  accepts g -> graph_calls g linked -> walk g 0 path ->
  exists p, run_does g path p /\ whenever_used p unchanged.
Proof.
  intros g path Ha Hg W. destruct (accepts_runs g path Ha W) as (p & Hp & A).
  exists p. split; [exact Hp|]. apply c70_partial_fact; [exact A|].
  exact (trail_calls g linked path _ _ p Hg (proj2 Hp)).
Qed.

(** Checking that a path is a walk (for examples). *)
Fixpoint is_walk (g : graph) (path : list nat) : bool :=
  match path with
  | [] => true
  | l :: rest =>
      match nth_error (g_nodes g) l with
      | None => false
      | Some n => match rest with [] => true | l' :: _ => mem l' (n_next n) && is_walk g rest end
      end
  end.
Lemma is_walk_ok : forall g path, is_walk g path = true -> walk g (hd 0 path) path.
Proof.
  intros g. induction path as [|l path IH]; intros H; [apply walk_stop|].
  cbn [is_walk] in H. destruct (nth_error (g_nodes g) l) as [n|] eqn:E; [|discriminate].
  destruct path as [|l' path]; [exact (walk_last g l n E)|].
  apply andb_prop in H. destruct H as [H1 H2]. apply mem_in in H1.
  exact (walk_step g l n l' _ E H1 (IH H2)).
Qed.

(** A graph one of whose runs is not accepted is not accepted. *)
Lemma refused_by : forall g path, walk g 0 path ->
  match trail g (fun _ => None) 0 path with Some p => accepted p | None => false end = false ->
  ~ accepts g.
Proof.
  intros g path W H Ha. destruct (accepts_runs g path Ha W) as (p & (_ & T) & A).
  rewrite T in H. congruence.
Qed.

(** ** Views for reading exclude nothing but writing *)


Lemma looks_free : forall sg n rest x,
  (forall k a y m, nth_error sg k = Some a -> In (y, m) (s_loans a) -> m = false) ->
  free_from n sg rest x false = true.
Proof.
  intros sg n rest x H. apply free_from_in. intros k b Hk _ m Hm E.
  rewrite (H k b x m Hk Hm) in E. discriminate.
Qed.
Lemma looks_accepted : forall p sg,
  (forall k a, nth_error sg k = Some a -> s_gone a = false) ->
  (forall k a y m, nth_error sg k = Some a -> In (y, m) (s_loans a) -> m = false) ->
  only_looks_from (map s_kind sg) p -> accepted_from sg p = true.
Proof.
  induction p as [|s p IH]; intros sg Hg Hl H; [reflexivity|].
  assert (Hacc : forall x rest, x < length sg -> may_access sg rest x false = true).
  { intros x rest Hx. unfold may_access. destruct (nth_error sg x) as [a|] eqn:E.
    - rewrite (Hg x a E). apply looks_free. exact Hl.
    - apply nth_error_None in E. lia. }
  assert (Hk : forall x k, nth_error (map s_kind sg) x = Some k -> x < length sg /\ has_kind sg x k = true).
  { intros x k E. rewrite nth_error_map in E. unfold has_kind.
    destruct (nth_error sg x) as [a|] eqn:Ea; [|discriminate]. injection E as <-.
    split; [apply nth_error_Some; congruence|destruct (s_kind a); reflexivity]. }
  assert (Hnew : forall k l, (forall y m, In (y, m) l -> m = false) ->
            only_looks_from (map s_kind sg ++ [k]) p -> accepted_from (sg ++ [SVar k false l]) p = true).
  { intros k l Hm Hp. apply IH.
    - intros i a E. rewrite nth_end in E. destruct (i =? length sg); [injection E as <-; reflexivity|eauto].
    - intros i a y m E Hi. rewrite nth_end in E.
      destruct (i =? length sg); [injection E as <-; exact (Hm y m Hi)|eauto].
    - rewrite map_app. exact Hp. }
  destruct s as [|f x|x|v|v|x]; cbn [only_looks_from accepted_from stmt_ok s_step] in *; try contradiction.
  - apply Hnew; [intros y m []|exact H].
  - destruct H as (Hp & Hx & H). destruct (Hk x _ Hx) as (Hx' & ->). rewrite Hp. cbn [wants].
    rewrite (Hacc x p Hx'). cbn. apply Hnew; [|exact H].
    intros y m Hi. unfold loans_for in Hi. destruct (nth_error sg x) as [a|] eqn:E; [|destruct Hi].
    rewrite Hp in Hi. destruct (f_tie f); [destruct Hi as [Hi|Hi]; [injection Hi as _ <-; reflexivity|]| |destruct Hi];
      exact (Hl x a y m E Hi).
  - destruct H as (Hv & H). apply andb_true_intro. split; [|apply IH; assumption].
    apply andb_true_intro. destruct Hv as [Hv|Hv]; destruct (Hk v _ Hv) as (Hv' & ->);
      (split; [auto using orb_true_r|apply Hacc; exact Hv']).
Qed.

Lemma c86_readers_fact : forall p, only_looks p -> accepted p = true.
Proof.
  intros p H. apply looks_accepted; [| |exact H].
  - intros [|k] a; discriminate.
  - intros [|k] a y m; discriminate.
Qed.

Lemma c86_signatures_fact : forall name,
  In name ["VecCopy::iter"; "VecCopy::as_slice"; "VecCopy::get_ref"; "VecCopy::iter_as";
           "VecCopy::as_slice_as"; "VecCopy::get_ref_as"; "VecDyn::iter"; "VecDyn::as_slice";
           "VecDyn::get"; "VecDyn::iter_as"; "VecDyn::as_slice_as"; "VecDyn::get_ref_as";
           "Value::as_ref"; "SliceCopy::iter"; "SliceCopy::get"; "SliceCopy::split_at";
           "SliceCopy::chunks_exact"; "SliceCopy::subslice"; "SliceCopy::reborrow"; "SliceCopy::clone";
           "Slice::iter"; "Slice::get"; "Slice::split_at"; "Slice::chunks_exact"; "Slice::subslice";
           "Slice::reborrow"; "Slice::clone"; "ValueRef::reborrow"; "ValueRef::clone";
           "SliceCopyMut::get"; "SliceCopyMut::subslice"; "SliceCopyMut::reborrow";
           "SliceCopyMut::chunks_exact"; "SliceMut::get"; "SliceMut::subslice"; "SliceMut::reborrow";
           "SliceMut::chunks_exact"; "ValueMut::reborrow"]%string ->
  exists f, In f dync_api /\ f_name f = name /\ f_passing f = ByRef /\ f_gives f = Shared.
Proof.
  intros name H. cbn [In] in H.
  repeat (destruct H as [<-|H];
    [match goal with |- context [f_name _ = ?n] =>
       let r := eval vm_compute in (find (fun f => String.eqb (f_name f) n) dync_api) in
       match r with Some ?f => exists f end end; split; [vm_compute; auto 150|auto]|]).
  destruct H.
Qed.
