(** * BorrowProofs: accepted programs over linked signatures never use a view that went stale. *)

From Coq Require Import String List Arith Bool Lia.
Import ListNotations.
From Verif Require Import Borrow BorrowSpec.

(** ** Looking variables up in both states at once *)

Definition info : Type := (kind * list (nat * bool) * cell)%type.
Definition look (g : list svar) (st : list dvar) (v : nat) : option info :=
  match nth_error g v, nth_error st v with
  | Some a, Some b => if s_gone a then None else Some (s_kind a, s_loans a, d_cell b)
  | _, _ => None
  end.
Definition agree (g : list svar) (st : list dvar) : Prop :=
  length g = length st /\
  forall v a b, nth_error g v = Some a -> nth_error st v = Some b -> s_gone a = d_gone b.

Definition live (rest : list stmt) (v : nat) : Prop := used_later rest v = true.

Definition fits (k : kind) (c : cell) : Prop :=
  match c with
  | COwner _ _ => k = Owner
  | CView e _ _ _ _ => k = if e then Exclusive else Shared
  end.

Record inv (lk : nat -> option info) (n : nat) (rest : list stmt) : Prop := Inv
  { i_bound : forall v k l c, lk v = Some (k, l, c) -> v < n;
    i_fits : forall v k l c, lk v = Some (k, l, c) -> fits k c;
    i_owner : forall v k l m w, lk v = Some (k, l, COwner m w) -> l = [];
    i_less : forall v k l c y m, lk v = Some (k, l, c) -> In (y, m) l -> y < v;
    i_there : forall v k l c y m,
      lk v = Some (k, l, c) -> live rest v -> In (y, m) l -> lk y <> None;
    i_data : forall v k l e o mv wr tab,
      lk v = Some (k, l, CView e o mv wr tab) -> live rest v ->
      (exists m, In (o, m) l) /\
      exists ko lo w, lk o = Some (ko, lo, COwner mv w) /\ (e = false -> w = wr);
    i_table : forall v k l e o mv wr h,
      lk v = Some (k, l, CView e o mv wr (Some h)) -> live rest v -> exists m, In (h, m) l;
    i_excl : forall v l c y m,
      lk v = Some (Exclusive, l, c) -> live rest v -> In (y, m) l ->
      m = true /\ forall l' c', lk y <> Some (Shared, l', c');
    i_pair : forall v1 v2 l1 k2 l2 e1 e2 o m1 m2 w1 w2 t1 t2,
      lk v1 = Some (Exclusive, l1, CView e1 o m1 w1 t1) ->
      lk v2 = Some (k2, l2, CView e2 o m2 w2 t2) ->
      v1 <> v2 -> live rest v1 -> live rest v2 ->
      (exists m, In (v1, m) l2) \/ (exists m, In (v2, m) l1) }.

(** No variable used later holds a conflicting loan on [x]. *)
Definition unloaned (lk : nat -> option info) (rest : list stmt) (x : nat) (ex : bool) : Prop :=
  forall v k l c m, lk v = Some (k, l, c) -> live rest v -> In (x, m) l -> ex = false /\ m = false.

Lemma live_cons : forall s rest v, live rest v -> live (s :: rest) v.
Proof. unfold live, used_later. cbn [existsb]. intros s rest v H. rewrite H. apply orb_true_r. Qed.
Lemma live_touched : forall s rest v, touches s v -> live (s :: rest) v.
Proof.
  unfold live, used_later, touches. cbn [existsb]. intros s rest v H. rewrite H, Nat.eqb_refl. reflexivity.
Qed.

Lemma inv_mono : forall lk n s rest, inv lk n (s :: rest) -> inv lk n rest.
Proof.
  intros lk n s rest [A B C D E F G H K]. split; intros;
    eauto using live_cons.
Qed.

(** ** A variable ends *)

Lemma inv_end : forall lk lk' n rest x,
  inv lk n rest -> unloaned lk rest x true ->
  (forall v, lk' v = if v =? x then None else lk v) ->
  inv lk' n rest.
Proof.
  intros lk lk' n rest x I U E.
  assert (K : forall v i, lk' v = Some i -> v <> x /\ lk v = Some i).
  { intros v i H. rewrite E in H. destruct (v =? x) eqn:Ex; [discriminate|].
    apply Nat.eqb_neq in Ex. auto. }
  assert (K' : forall v, v <> x -> lk' v = lk v).
  { intros v H. rewrite E. apply Nat.eqb_neq in H. rewrite H. reflexivity. }
  assert (N : forall v k l c m, lk v = Some (k, l, c) -> live rest v -> In (x, m) l -> False).
  { intros v k l c m H1 H2 H3. destruct (U _ _ _ _ _ H1 H2 H3). discriminate. }
  assert (N' : forall v k l c y m, lk v = Some (k, l, c) -> live rest v -> In (y, m) l -> y <> x).
  { intros v k l c y m H1 H2 H3 ->. eauto. }
  split.
  - intros v k l c H. apply K in H as [_ H]. eapply i_bound; eauto.
  - intros v k l c H. apply K in H as [_ H]. eapply i_fits; eauto.
  - intros v k l m w H. apply K in H as [_ H]. eapply i_owner; eauto.
  - intros v k l c y m H. apply K in H as [_ H]. eapply i_less; eauto.
  - intros v k l c y m H Hl Hy. apply K in H as [_ H]. rewrite K' by eauto. eapply i_there; eauto.
  - intros v k l e o mv wr tab H Hl. apply K in H as [_ H].
    destruct (i_data _ _ _ I _ _ _ _ _ _ _ _ H Hl) as [[m Hm] (ko & lo & w & Ho & Hw)].
    split; [eauto|]. exists ko, lo, w. split; [|exact Hw]. rewrite K' by eauto. exact Ho.
  - intros v k l e o mv wr h H Hl. apply K in H as [_ H]. eapply i_table; eauto.
  - intros v l c y m H Hl Hy. apply K in H as [_ H].
    destruct (i_excl _ _ _ I _ _ _ _ _ H Hl Hy) as [Hm Hs]. split; [exact Hm|].
    intros l' c' Hc. apply K in Hc as [_ Hc]. eapply Hs; eauto.
  - intros v1 v2 l1 k2 l2 e1 e2 o m1 m2 w1 w2 t1 t2 H1 H2. apply K in H1 as [_ H1]. apply K in H2 as [_ H2].
    intros. eapply i_pair; eauto.
Qed.

(** ** The elements of an owner are written or moved *)

Lemma inv_write : forall lk lk' n rest o ko lo mv wr mv',
  inv lk n rest ->
  lk o = Some (ko, lo, COwner mv wr) ->
  (** no live view for reading sees the owner, and if its memory moves, no live view at all *)
  (forall v k l e m w t, lk v = Some (k, l, CView e o m w t) -> live rest v -> e = true /\ mv' = mv) ->
  (forall v, lk' v = if v =? o then Some (ko, lo, COwner mv' (S wr)) else lk v) ->
  inv lk' n rest.
Proof.
  intros lk lk' n rest o ko lo mv wr mv' I Ho U E.
  assert (K : forall v k l e q m w t, lk' v = Some (k, l, CView e q m w t) -> lk v = Some (k, l, CView e q m w t)).
  { intros v k l e q m w t H. rewrite E in H. destruct (v =? o); [discriminate|exact H]. }
  assert (K1 : forall v k l c, lk' v = Some (k, l, c) -> exists c', lk v = Some (k, l, c')).
  { intros v k l c H. rewrite E in H. destruct (v =? o) eqn:Ev; [|eauto].
    apply Nat.eqb_eq in Ev. subst v. injection H as <- <- <-. eauto. }
  assert (K2 : forall v, lk v <> None -> lk' v <> None).
  { intros v H. rewrite E. destruct (v =? o); [discriminate|exact H]. }
  split.
  - intros v k l c H. apply K1 in H as [c' H]. eapply i_bound; eauto.
  - intros v k l c H. rewrite E in H. destruct (v =? o) eqn:Ev.
    + injection H as <- <- <-. apply (i_fits _ _ _ I _ _ _ _ Ho).
    + eapply i_fits; eauto.
  - intros v k l m w H. rewrite E in H. destruct (v =? o) eqn:Ev.
    + injection H as <- <- <- <-. apply (i_owner _ _ _ I _ _ _ _ _ Ho).
    + eapply i_owner; eauto.
  - intros v k l c y m H. apply K1 in H as [c' H]. eapply i_less; eauto.
  - intros v k l c y m H Hl Hy. apply K1 in H as [c' H]. apply K2. eapply i_there; eauto.
  - intros v k l e q m w t H Hl. apply K in H.
    destruct (i_data _ _ _ I _ _ _ _ _ _ _ _ H Hl) as [Hm (kq & lq & w' & Hq & Hw)].
    split; [exact Hm|]. destruct (q =? o) eqn:Eq.
    + apply Nat.eqb_eq in Eq. subst q. destruct (U _ _ _ _ _ _ _ H Hl) as [-> ->].
      rewrite Ho in Hq. injection Hq as <- <- <- <-. exists ko, lo, (S wr).
      rewrite E, Nat.eqb_refl. split; [reflexivity|discriminate].
    + exists kq, lq, w'. rewrite E, Eq. auto.
  - intros v k l e q m w h H Hl. apply K in H. eapply i_table; eauto.
  - intros v l c y m H Hl Hy. apply K1 in H as [c' H].
    destruct (i_excl _ _ _ I _ _ _ _ _ H Hl Hy) as [Hm Hs]. split; [exact Hm|].
    intros l' c'' Hc. apply K1 in Hc as [c3 Hc]. eapply Hs; eauto.
  - intros v1 v2 l1 k2 l2 e1 e2 q m1 m2 w1 w2 t1 t2 H1 H2. apply K in H1. apply K in H2.
    intros. eapply i_pair; eauto.
Qed.

(** ** A new owner *)

Lemma inv_new : forall lk lk' n rest,
  inv lk n rest -> (forall v, n <= v -> lk v = None) ->
  (forall v, lk' v = if v =? n then Some (Owner, [], COwner 0 0) else lk v) ->
  inv lk' (S n) rest.
Proof.
  intros lk lk' n rest I Z E.
  assert (K : forall v k l c, lk' v = Some (k, l, c) ->
            (v = n /\ k = Owner /\ l = [] /\ c = COwner 0 0) \/ (v < n /\ lk v = Some (k, l, c))).
  { intros v k l c H. rewrite E in H. destruct (v =? n) eqn:Ev.
    - apply Nat.eqb_eq in Ev. injection H as <- <- <-. auto.
    - right. split; [eapply i_bound; eauto|exact H]. }
  assert (K2 : forall v, lk v <> None -> lk' v = lk v).
  { intros v H. rewrite E. destruct (v =? n) eqn:Ev; [|reflexivity].
    apply Nat.eqb_eq in Ev. subst v. rewrite Z in H by lia. congruence. }
  split.
  - intros v k l c H. apply K in H as [(-> & _)|[H _]]; lia.
  - intros v k l c H. apply K in H as [(-> & -> & -> & ->)|[_ H]]; [reflexivity|eapply i_fits; eauto].
  - intros v k l m w H. apply K in H as [(-> & -> & -> & _)|[_ H]]; [reflexivity|eapply i_owner; eauto].
  - intros v k l c y m H Hy. apply K in H as [(-> & -> & -> & ->)|[_ H]]; [destruct Hy|eapply i_less; eauto].
  - intros v k l c y m H Hl Hy. apply K in H as [(-> & -> & -> & ->)|[_ H]]; [destruct Hy|].
    pose proof (i_there _ _ _ I _ _ _ _ _ _ H Hl Hy). rewrite K2; assumption.
  - intros v k l e o mv wr tab H Hl. apply K in H as [(_ & _ & _ & H)|[_ H]]; [discriminate|].
    destruct (i_data _ _ _ I _ _ _ _ _ _ _ _ H Hl) as [Hm (ko & lo & w & Ho & Hw)].
    split; [exact Hm|]. exists ko, lo, w. split; [|exact Hw]. rewrite K2; congruence.
  - intros v k l e o mv wr h H Hl. apply K in H as [(_ & _ & _ & H)|[_ H]]; [discriminate|].
    eapply i_table; eauto.
  - intros v l c y m H Hl Hy. apply K in H as [(_ & H & _)|[_ H]]; [discriminate|].
    destruct (i_excl _ _ _ I _ _ _ _ _ H Hl Hy) as [Hm Hs]. split; [exact Hm|].
    intros l' c' Hc. apply K in Hc as [(_ & Hc & _)|[_ Hc]]; [discriminate|]. eapply Hs; eauto.
  - intros v1 v2 l1 k2 l2 e1 e2 o m1 m2 w1 w2 t1 t2 H1 H2.
    apply K in H1 as [(_ & H1 & _)|[_ H1]]; [discriminate|].
    apply K in H2 as [(_ & _ & _ & H2)|[_ H2]]; [discriminate|].
    intros. eapply i_pair; eauto.
Qed.

(** ** A new view *)

(** What makes a signature honest about what its result depends on. *)
Definition honest (f : fn) : bool :=
  (match f_gives f with
   | Owner => false
   | Shared => true
   | Exclusive =>
       match f_from f, f_passing f with
       | Owner, ByMut | Exclusive, ByMut | Exclusive, ByValue => true
       | _, _ => false
       end
   end)
  && match f_tie f, f_passing f, f_from f with
     | ToCall, ByRef, _ | ToCall, ByMut, _ => true
     | ToData, ByValue, Shared | ToData, ByValue, Exclusive =>
         match f_table f with TheSource => false | _ => true end
     | ToData, ByRef, Shared =>
         kind_eqb (f_gives f) Shared && match f_table f with TheSource => false | _ => true end
     | _, _, _ => false
     end.

Definition moved (f : fn) : bool := match f_passing f with ByValue => true | _ => false end.

Lemma inv_call : forall lk lk' n f x rest kx lx cx o mv l tab,
  inv lk n (Call f x :: rest) -> (forall v, n <= v -> lk v = None) -> honest f = true ->
  lk x = Some (kx, lx, cx) -> kx = f_from f ->
  unloaned lk rest x (wants (f_passing f)) ->
  (o, mv) = match cx with COwner m _ => (x, m) | CView _ o m _ _ => (o, m) end ->
  l = match f_tie f with ToCall => (x, wants (f_passing f)) :: lx | ToData => lx | ToNothing => [] end ->
  tab = (let t := match cx with CView _ _ _ _ t => t | _ => None end in
         match f_table f with
         | TheSource => match t with None => Some x | Some h => Some h end
         | WhatSourceHad => t
         | Itself => None
         end) ->
  (forall ko lo m w, lk o = Some (ko, lo, COwner m w) ->
    forall v, lk' v = if v =? n then Some (f_gives f, l, CView (is_excl (f_gives f)) o mv w tab)
                      else if moved f && (v =? x) then None else lk v) ->
  inv lk' (S n) rest.
Proof.
  intros lk lk' n f x rest kx lx cx o mv l tab I Z Hon Hx Hk U Ho Hl Ht E.
  assert (Lx : live (Call f x :: rest) x) by (apply live_touched; reflexivity).
  pose proof (inv_mono _ _ _ _ I) as J.
  assert (Bx : x < n) by (eapply i_bound; eauto).
  (* the owner behind x *)
  assert (HO : exists ko lo w, lk o = Some (ko, lo, COwner mv w) /\
             (match cx with CView false _ _ wr _ => w = wr | _ => True end) /\
             (o = x \/ exists m, In (o, m) lx)).
  { destruct cx as [m w|e o' m w t].
    - injection Ho as -> ->. eexists _, _, _. split; [exact Hx|]. auto.
    - injection Ho as -> ->. destruct (i_data _ _ _ I _ _ _ _ _ _ _ _ Hx Lx) as [Hm (ko & lo & w' & Hq & Hw)].
      exists ko, lo, w'. split; [exact Hq|]. split; [|auto]. destruct e; auto. }
  destruct HO as (ko & lo & w & HO & HW & HOl).
  specialize (E _ _ _ _ HO).
  set (c := CView (is_excl (f_gives f)) o mv w tab) in *.
  assert (K : forall v k' l' c', lk' v = Some (k', l', c') ->
            (v = n /\ k' = f_gives f /\ l' = l /\ c' = c) \/
            (v < n /\ lk v = Some (k', l', c') /\ (moved f = true -> v <> x))).
  { intros v k' l' c' H. rewrite E in H. destruct (v =? n) eqn:Ev.
    - apply Nat.eqb_eq in Ev. injection H as <- <- <-. auto.
    - right. destruct (moved f && (v =? x)) eqn:Em; [discriminate|].
      split; [eapply i_bound; eauto|]. split; [exact H|]. intros Hm Hv. subst v.
      rewrite Hm, Nat.eqb_refl in Em. discriminate. }
  assert (K2 : forall v, lk v <> None -> (moved f = true -> v <> x) -> lk' v = lk v).
  { intros v H Hm. rewrite E. destruct (v =? n) eqn:Ev.
    - apply Nat.eqb_eq in Ev. subst v. rewrite Z in H by lia. congruence.
    - destruct (moved f) eqn:Em; [|reflexivity]. specialize (Hm eq_refl).
      apply Nat.eqb_neq in Hm. rewrite Hm. reflexivity. }
  (* loans of other live variables do not include x if x is moved *)
  assert (Mx : forall v k' l' c' y m, lk v = Some (k', l', c') -> live rest v -> In (y, m) l' ->
             moved f = true -> y <> x).
  { intros v k' l' c' y m H1 H2 H3 H4 ->. destruct (U _ _ _ _ _ H1 H2 H3) as [H5 _].
    unfold moved in H4. destruct (f_passing f); discriminate. }
  (* loans of the new variable *)
  assert (Ll : forall y m, In (y, m) l ->
             (y = x /\ moved f = false /\ m = wants (f_passing f)) \/ In (y, m) lx).
  { intros y m H. rewrite Hl in H. unfold honest in Hon. unfold moved.
    destruct (f_tie f); [|auto|destruct H].
    destruct H as [H|H]; [|auto]. injection H as <- <-. left.
    destruct (f_passing f); auto. rewrite andb_false_r in Hon. discriminate. }
  assert (Lx' : forall y m, In (y, m) lx -> In (y, m) l).
  { intros y m H. rewrite Hl. unfold honest in Hon. rewrite andb_comm in Hon.
    destruct (f_tie f); [right|exact H|discriminate]. exact H. }
  assert (NF : f_tie f <> ToNothing).
  { intros H. unfold honest in Hon. rewrite H, andb_false_r in Hon. discriminate. }
  assert (Less : forall y m, In (y, m) lx -> y < x) by (intros; eapply i_less; eauto).
  assert (Ol : exists m, In (o, m) l).
  { destruct HOl as [->|[m Hm]]; [|eauto]. destruct cx as [m' w'|e q m' w' t].
    - rewrite Hl. unfold honest in Hon. apply (i_fits _ _ _ I) in Hx. cbn in Hx. rewrite Hx in Hk.
      rewrite <- Hk in Hon. destruct (f_tie f); [eexists; left; reflexivity| |contradiction].
      rewrite andb_comm in Hon. destruct (f_passing f); discriminate.
    - destruct (i_data _ _ _ I _ _ _ _ _ _ _ _ Hx Lx) as [[m Hm] _]. injection Ho as -> ->. eauto. }
  assert (Ox : moved f = true -> o <> x).
  { intros Hm ->. destruct Ol as [m Hm']. destruct (Ll _ _ Hm') as [(_ & H & _)|H]; [congruence|].
    apply Less in H. lia. }
  assert (OE : lk' o = Some (ko, lo, COwner mv w)) by (rewrite K2; [exact HO|congruence|exact Ox]).
  split.
  - intros v k' l' c' H. apply K in H as [(-> & _)|[H _]]; lia.
  - intros v k' l' c' H. apply K in H as [(_ & -> & _ & ->)|(_ & H & _)]; [|eapply i_fits; eauto].
    unfold c, fits, is_excl. unfold honest in Hon. destruct (f_gives f); [discriminate|reflexivity..].
  - intros v k' l' m w' H. apply K in H as [(_ & _ & _ & H)|(_ & H & _)]; [discriminate|eapply i_owner; eauto].
  - intros v k' l' c' y m H Hy. apply K in H as [(-> & _ & -> & _)|(_ & H & _)]; [|eapply i_less; eauto].
    apply Ll in Hy as [(-> & _)|Hy]; [lia|]. apply Less in Hy. lia.
  - intros v k' l' c' y m H Hv Hy. apply K in H as [(-> & _ & -> & _)|(_ & H & _)].
    + apply Ll in Hy as [(-> & Hm & _)|Hy].
      * rewrite K2; [congruence|congruence|]. rewrite Hm. discriminate.
      * pose proof (i_there _ _ _ I _ _ _ _ _ _ Hx Lx Hy) as Hn. rewrite K2; [exact Hn|exact Hn|].
        intros _ ->. apply Less in Hy. lia.
    + pose proof (i_there _ _ _ J _ _ _ _ _ _ H Hv Hy) as Hn. rewrite K2; [exact Hn|exact Hn|].
      eauto.
  - intros v k' l' e q m' wr t H Hv. apply K in H as [(_ & _ & -> & H)|(_ & H & _)].
    + unfold c in H. injection H as -> -> -> -> ->. split; [exact Ol|].
      exists ko, lo, w. split; [exact OE|reflexivity].
    + destruct (i_data _ _ _ J _ _ _ _ _ _ _ _ H Hv) as [[m Hm] (kq & lq & w' & Hq & Hw)].
      split; [eauto|]. exists kq, lq, w'. split; [|exact Hw]. rewrite K2; [exact Hq|congruence|eauto].
  - intros v k' l' e q m' wr h H Hv. apply K in H as [(_ & _ & -> & H)|(_ & H & _)].
    2:{ eapply (i_table _ _ _ J); eauto. }
    unfold c in H. injection H as -> -> -> -> Hh. rewrite <- Hh in Ht. cbn zeta in Ht.
    assert (T : forall e' q' m'' w'' h', cx = CView e' q' m'' w'' (Some h') -> exists m, In (h', m) l).
    { intros e' q' m'' w'' h' ->. destruct (i_table _ _ _ I _ _ _ _ _ _ _ _ Hx Lx) as [m Hm]. eauto. }
    destruct (f_table f) eqn:Ef; [| |discriminate].
    + assert (TC : f_tie f = ToCall).
      { unfold honest in Hon. rewrite Ef in Hon. destruct (f_tie f); [reflexivity| |contradiction].
        rewrite andb_comm in Hon.
        destruct (f_passing f), (f_from f); cbn in Hon; try discriminate. rewrite andb_false_r in Hon. discriminate. }
      destruct cx as [? ?|? ? ? ? [h'|]].
      * injection Ht as ->. rewrite Hl, TC. eexists. left. reflexivity.
      * injection Ht as ->. eauto.
      * injection Ht as ->. rewrite Hl, TC. eexists. left. reflexivity.
    + destruct cx as [? ?|? ? ? ? t']; [discriminate|]. subst t'. eauto.
  - intros v l' c' y m H Hv Hy. apply K in H as [(_ & Hg & -> & _)|(_ & H & _)].
    + (* the new view is exclusive *)
      assert (P : kx <> Shared /\ wants (f_passing f) = true).
      { rewrite Hk. unfold honest in Hon. rewrite <- Hg in Hon.
        destruct (f_from f), (f_passing f); cbn in Hon; try discriminate; split; discriminate || reflexivity. }
      destruct P as [P1 P2].
      assert (Q : m = true /\ forall l'' c'', lk y <> Some (Shared, l'', c'')).
      { apply Ll in Hy as [(-> & _ & ->)|Hy].
        - split; [exact P2|]. intros l'' c'' H. rewrite Hx in H. injection H as H _ _. contradiction.
        - destruct kx.
          + (* an owner has no loans *) destruct cx as [m' w'|e q m' w' t].
            * rewrite (i_owner _ _ _ I _ _ _ _ _ Hx) in Hy. destruct Hy.
            * apply (i_fits _ _ _ I) in Hx. cbn in Hx. destruct e; discriminate.
          + congruence.
          + exact (i_excl _ _ _ I _ _ _ _ _ Hx Lx Hy). }
      destruct Q as [Q1 Q2]. split; [exact Q1|]. intros l'' c'' H.
      apply K in H as [(-> & _)|(_ & H & _)]; [|eapply Q2; eauto].
      apply Ll in Hy as [(-> & _)|Hy]; [lia|]. apply Less in Hy. lia.
    + destruct (i_excl _ _ _ J _ _ _ _ _ H Hv Hy) as [Hm Hs]. split; [exact Hm|].
      intros l'' c'' Hc. apply K in Hc as [(-> & _)|(_ & Hc & _)]; [|eapply Hs; eauto].
      pose proof (i_less _ _ _ I _ _ _ _ _ _ H Hy). pose proof (i_bound _ _ _ I _ _ _ _ H). lia.
  - intros v1 v2 l1 k2 l2 e1 e2 q m1 m2 w1 w2 t1 t2 H1 H2 Hne Hv1 Hv2.
    (* x against another live view of the same owner *)
    assert (S1 : forall v k' l' e' m' w' t', lk v = Some (k', l', CView e' o m' w' t') -> live rest v ->
               v <> x -> k' = Exclusive \/ f_gives f = Exclusive -> exists m, In (v, m) lx).
    { intros v k' l' e' m' w' t' H Hv Hnx Hor.
      assert (Conf : forall m, In (x, m) l' -> False).
      { intros m Hm. destruct (U _ _ _ _ _ H Hv Hm) as [Hw Hm'].
        destruct Hor as [->|Hg].
        - destruct (i_excl _ _ _ J _ _ _ _ _ H Hv Hm) as [Hm2 _]. congruence.
        - unfold honest in Hon. rewrite Hg in Hon.
          destruct (f_from f), (f_passing f); cbn in Hon, Hw; discriminate. }
      destruct cx as [mx wx|ex ox mx wx tx].
      - injection Ho as -> ->. destruct (i_data _ _ _ J _ _ _ _ _ _ _ _ H Hv) as [[m Hm] _].
        exfalso. eauto.
      - injection Ho as -> ->.
        assert (Hv' : live (Call f x :: rest) v) by (apply live_cons; exact Hv).
        assert (D : (exists m, In (v, m) lx) \/ (exists m, In (x, m) l')).
        { destruct Hor as [->|Hg].
          - eapply (i_pair _ _ _ I v x); eauto.
          - assert (Ex : kx = Exclusive).
            { pose proof (i_fits _ _ _ I _ _ _ _ Hx) as Fx. cbn in Fx. unfold honest in Hon. rewrite Hg in Hon.
              rewrite Hk in *. destruct (f_from f), (f_passing f), ex; cbn in Hon, Fx; congruence. }
            rewrite Ex in Hx. edestruct (i_pair _ _ _ I x v); eauto. }
        destruct D as [D|[m D]]; [exact D|]. exfalso. eauto. }
    assert (S2 : kx = Exclusive \/ f_gives f = Exclusive -> moved f = false -> exists m, In (x, m) l).
    { intros Hor Hm. rewrite Hl. unfold honest in Hon. unfold moved in Hm.
      destruct (f_tie f); [eexists; left; reflexivity| |contradiction].
      exfalso. destruct Hor as [Hor|Hor]; rewrite ?Hor in *; [rewrite <- Hk in Hon|];
        destruct (f_gives f), (f_from f), (f_passing f); cbn in Hon, Hor; congruence. }
    apply K in H1 as [(-> & Hg & -> & Hc)|(B1 & H1 & X1)];
      apply K in H2 as [(-> & Hg2 & -> & Hc2)|(B2 & H2 & X2)].
    + contradiction.
    + unfold c in Hc. injection Hc as -> -> -> -> ->. right.
      destruct (Nat.eq_dec v2 x) as [->|Nx].
      * apply S2; [auto|]. destruct (moved f); [exfalso; apply X2; reflexivity|reflexivity].
      * edestruct S1 as [m Hm]; eauto.
    + unfold c in Hc2. injection Hc2 as -> -> -> -> ->. left.
      destruct (Nat.eq_dec v1 x) as [->|Nx].
      * apply S2; [|destruct (moved f); [exfalso; apply X1; reflexivity|reflexivity]].
        left. rewrite Hx in H1. injection H1 as -> _ _. reflexivity.
      * edestruct S1 as [m Hm]; eauto.
    + eapply (i_pair _ _ _ J); eauto.
Qed.

(** ** From lookups back to programs *)

Lemma nth_set : forall A n m (a : A) l,
  nth_error (set_nth n a l) m =
  if n =? m then match nth_error l m with Some _ => Some a | None => None end else nth_error l m.
Proof.
  induction n as [|n IH]; intros [|m] a [|b l]; cbn; try reflexivity.
  - destruct (n =? m); reflexivity.
  - apply IH.
Qed.
Lemma length_set : forall A n (a : A) l, length (set_nth n a l) = length l.
Proof. induction n; intros a [|b l]; cbn; auto. Qed.
Lemma nth_end : forall A (l : list A) a v,
  nth_error (l ++ [a]) v = if v =? length l then Some a else nth_error l v.
Proof.
  intros A l a v. destruct (v =? length l) eqn:E.
  - apply Nat.eqb_eq in E. subst v. rewrite nth_error_app2, Nat.sub_diag by lia. reflexivity.
  - apply Nat.eqb_neq in E. destruct (Nat.lt_ge_cases v (length l)) as [H|H].
    + apply nth_error_app1. exact H.
    + rewrite nth_error_app2 by exact H. destruct (v - length l) as [|d] eqn:D; [lia|].
      cbn. symmetry. transitivity (@None A); [apply nth_error_None; lia|destruct d; reflexivity].
Qed.

Lemma look_none : forall g st v, length g <= v -> look g st v = None.
Proof. intros g st v H. unfold look. apply nth_error_None in H. rewrite H. reflexivity. Qed.

Lemma look_end : forall g st x v, length g = length st ->
  look (s_end x g) (d_end x st) v = if v =? x then None else look g st v.
Proof.
  intros g st x v L. unfold look, s_end, d_end.
  destruct (nth_error g x) as [a|] eqn:Eg.
  - destruct (nth_error st x) as [b|] eqn:Es.
    2:{ apply nth_error_None in Es. assert (nth_error g x <> None) by congruence.
        apply nth_error_Some in H. lia. }
    rewrite !nth_set, (Nat.eqb_sym x v). destruct (v =? x) eqn:Ev; [|reflexivity].
    apply Nat.eqb_eq in Ev. subst v. rewrite Eg, Es. reflexivity.
  - assert (Es : nth_error st x = None).
    { apply nth_error_None. apply nth_error_None in Eg. lia. }
    rewrite Es. destruct (v =? x) eqn:Ev; [|reflexivity].
    apply Nat.eqb_eq in Ev. subst v. rewrite Eg. reflexivity.
Qed.
Lemma look_app : forall g st k l c v, length g = length st ->
  look (g ++ [SVar k false l]) (st ++ [DVar false c]) v =
  if v =? length g then Some (k, l, c) else look g st v.
Proof.
  intros g st k l c v L. unfold look. rewrite !nth_end, <- L. destruct (v =? length g); reflexivity.
Qed.
Lemma look_write : forall g st d o v ko lo m w, look g st o = Some (ko, lo, COwner m w) ->
  look g (d_write d o st) v = if v =? o then Some (ko, lo, COwner (m + d) (S w)) else look g st v.
Proof.
  intros g st d o v ko lo m w H. unfold look in H.
  destruct (nth_error g o) as [a|] eqn:Eg; [|discriminate].
  destruct (nth_error st o) as [[gn c]|] eqn:Es; [|discriminate].
  destruct (s_gone a) eqn:Ea; [discriminate|]. injection H as <- <- Hc. cbn in Hc. subst c.
  unfold look, d_write. rewrite Es, nth_set, (Nat.eqb_sym o v). destruct (v =? o) eqn:Ev; [|reflexivity].
  apply Nat.eqb_eq in Ev. subst v. rewrite Eg, Es, Ea. reflexivity.
Qed.

Lemma agree_end : forall g st x, agree g st -> agree (s_end x g) (d_end x st).
Proof.
  intros g st x [L A]. unfold s_end, d_end.
  destruct (nth_error g x) as [a|] eqn:Eg; destruct (nth_error st x) as [b|] eqn:Es.
  - split; [rewrite !length_set; exact L|]. intros v a' b'. rewrite !nth_set.
    destruct (x =? v) eqn:Ev; [|apply A]. apply Nat.eqb_eq in Ev. subst v. rewrite Eg, Es.
    intros [= <-] [= <-]. reflexivity.
  - apply nth_error_None in Es. assert (H : nth_error g x <> None) by congruence.
    apply nth_error_Some in H. lia.
  - apply nth_error_None in Eg. assert (H : nth_error st x <> None) by congruence.
    apply nth_error_Some in H. lia.
  - split; assumption.
Qed.
Lemma agree_app : forall g st k l c, agree g st -> agree (g ++ [SVar k false l]) (st ++ [DVar false c]).
Proof.
  intros g st k l c [L A]. split; [rewrite !app_length; cbn; lia|]. intros v a b.
  rewrite !nth_end, <- L. destruct (v =? length g); [|apply A]. intros [= <-] [= <-]. reflexivity.
Qed.
Lemma agree_write : forall g st d o, agree g st -> agree g (d_write d o st).
Proof.
  intros g st d o [L A]. unfold d_write. destruct (nth_error st o) as [[gn [m w|]]|] eqn:Es; [|split; assumption..].
  split; [rewrite length_set; exact L|]. intros v a b Ha. rewrite nth_set. destruct (o =? v) eqn:Ev; [|eauto].
  apply Nat.eqb_eq in Ev. subst v. rewrite Es. intros [= <-]. exact (A _ _ _ Ha Es).
Qed.

Lemma free_from_out : forall g n rest x ex, free_from n g rest x ex = true ->
  forall v a m, nth_error g v = Some a -> live rest (n + v) -> In (x, m) (s_loans a) -> ex = false /\ m = false.
Proof.
  induction g as [|b g IH]; intros n rest x ex H v a m Hv Hl Hin; [destruct v; discriminate|].
  cbn in H. apply andb_true_iff in H as [H1 H2]. destruct v as [|v].
  - injection Hv as <-. rewrite Nat.add_0_r in Hl. unfold live in Hl. rewrite Hl in H1. cbn in H1.
    apply negb_true_iff in H1. destruct (conflicts x ex (x, m)) eqn:C.
    + assert (existsb (conflicts x ex) (s_loans b) = true); [|congruence].
      apply existsb_exists. eauto.
    + unfold conflicts in C. cbn in C. rewrite Nat.eqb_refl in C. cbn in C. apply orb_false_iff in C. exact C.
  - eapply IH; eauto. rewrite Nat.add_succ_r in Hl. exact Hl.
Qed.

Lemma look_some : forall g st v k l c, look g st v = Some (k, l, c) ->
  exists a b, nth_error g v = Some a /\ nth_error st v = Some b /\ s_gone a = false /\
    k = s_kind a /\ l = s_loans a /\ c = d_cell b.
Proof.
  intros g st v k l c H. unfold look in H.
  destruct (nth_error g v) as [a|]; [|discriminate]. destruct (nth_error st v) as [b|]; [|discriminate].
  destruct (s_gone a) eqn:E; [discriminate|]. injection H as <- <- <-. exists a, b. auto 10.
Qed.

Lemma access_out : forall g st rest x ex, length g = length st -> may_access g rest x ex = true ->
  (exists a b, nth_error g x = Some a /\ nth_error st x = Some b /\ s_gone a = false /\
     look g st x = Some (s_kind a, s_loans a, d_cell b)) /\
  unloaned (look g st) rest x ex.
Proof.
  intros g st rest x ex L H. unfold may_access in H. destruct (nth_error g x) as [a|] eqn:Eg; [|discriminate].
  apply andb_true_iff in H as [H1 H2]. apply negb_true_iff in H1. split.
  - destruct (nth_error st x) as [b|] eqn:Es.
    + exists a, b. unfold look. rewrite Eg, Es, H1. auto.
    + apply nth_error_None in Es. assert (H : nth_error g x <> None) by congruence.
      apply nth_error_Some in H. lia.
  - intros v k l c m Hv Hl Hin. apply look_some in Hv as (a' & b' & Ha & _ & _ & _ & -> & _).
    eapply free_from_out; eauto.
Qed.

Lemma kind_eqb_eq : forall a b, kind_eqb a b = true -> a = b.
Proof. intros [] []; cbn; congruence. Qed.

Lemma d_view_ok : forall g st f x kx lx cx ko lo m w,
  look g st x = Some (kx, lx, cx) ->
  let o := match cx with COwner _ _ => x | CView _ o _ _ _ => o end in
  look g st o = Some (ko, lo, COwner m w) ->
  d_view st f x = CView (is_excl (f_gives f)) o
    (match cx with COwner m _ => m | CView _ _ m _ _ => m end) w
    (let t := match cx with CView _ _ _ _ t => t | _ => None end in
     match f_table f with
     | TheSource => match t with None => Some x | Some h => Some h end
     | WhatSourceHad => t
     | Itself => None
     end).
Proof.
  intros g st f x kx lx cx ko lo m w Hx o Ho.
  apply look_some in Hx as (a & [gx cx'] & _ & Ex & _ & _ & _ & Hc). cbn in Hc. subst cx'.
  apply look_some in Ho as (ao & [go co] & _ & Eo & _ & _ & _ & Hco). cbn in Hco. subst co.
  unfold d_view, owner_of, moves_seen, tab_of, counts. rewrite Ex. unfold o in *.
  destruct cx as [mx wx|ex ox mx wx tx]; rewrite ?Ex, ?Eo; cbn; [|reflexivity].
  rewrite Ex in Eo. injection Eo as -> -> ->. reflexivity.
Qed.

Lemma step_inv : forall g st s rest,
  agree g st -> inv (look g st) (length g) (s :: rest) -> stmt_ok g s rest = true ->
  (forall f x, s = Call f x -> honest f = true) ->
  agree (s_step g s) (d_step st s) /\
  inv (look (s_step g s) (d_step st s)) (length (s_step g s)) rest.
Proof.
  intros g st s rest A I Hok Hon. pose proof (proj1 A) as L. pose proof (inv_mono _ _ _ _ I) as J.
  destruct s as [|f x|x|v|v|x]; cbn [stmt_ok] in Hok; cbn [s_step d_step].
  - split; [apply agree_app; exact A|]. rewrite app_length, Nat.add_1_r.
    apply (inv_new (look g st)); [exact J|apply look_none|]. intros v. apply look_app. exact L.
  - apply andb_true_iff in Hok as [Hk Ha]. specialize (Hon _ _ eq_refl).
    destruct (access_out _ st _ _ _ L Ha) as [(a & b & Eg & Es & Ea & Hx) U].
    unfold has_kind in Hk. rewrite Eg in Hk. apply kind_eqb_eq in Hk.
    split.
    { apply agree_app. destruct (f_passing f); [exact A|exact A|apply agree_end; exact A]. }
    rewrite app_length, Nat.add_1_r.
    assert (Len : length (match f_passing f with ByValue => s_end x g | _ => g end) = length g).
    { destruct (f_passing f); [reflexivity|reflexivity|]. unfold s_end. rewrite Eg. apply length_set. }
    rewrite Len.
    eapply (inv_call (look g st)) with (f := f) (x := x)
      (o := match d_cell b with COwner _ _ => x | CView _ o _ _ _ => o end)
      (mv := match d_cell b with COwner m _ => m | CView _ _ m _ _ => m end);
      [exact I|apply look_none|exact Hon|exact Hx|exact Hk|exact U
      |destruct (d_cell b); reflexivity|reflexivity|reflexivity|].
    intros ko lo m w Ho v.
    assert (Ho' : look g st (match d_cell b with COwner _ _ => x | CView _ o _ _ _ => o end) = Some (ko, lo, COwner m w)).
    { destruct (d_cell b); exact Ho. }
    rewrite (d_view_ok _ _ f _ _ _ _ _ _ _ _ Hx Ho').
    assert (Len2 : length (match f_passing f with ByValue => s_end x g | _ => g end) =
                   length (match f_passing f with ByValue => d_end x st | _ => st end)).
    { rewrite Len. destruct (f_passing f); [exact L|exact L|]. unfold d_end. rewrite Es, length_set. exact L. }
    rewrite look_app by exact Len2. rewrite Len.
    destruct (v =? length g).
    + f_equal. unfold loans_for. rewrite Eg. destruct (d_cell b); reflexivity.
    + unfold moved. destruct (f_passing f); cbn [andb]; [reflexivity|reflexivity|].
      apply look_end. exact L.
  - apply andb_true_iff in Hok as [Hk Ha].
    destruct (access_out _ st _ _ _ L Ha) as [(a & b & Eg & Es & Ea & Hx) U].
    unfold has_kind in Hk. rewrite Eg in Hk. apply kind_eqb_eq in Hk.
    split; [apply agree_write; exact A|].
    pose proof (i_fits _ _ _ J _ _ _ _ Hx) as F. rewrite Hk in F.
    destruct (d_cell b) as [m w|[] ? ? ? ?] eqn:Eb; cbn in F; try discriminate.
    eapply (inv_write (look g st)) with (o := x) (mv' := m + 1); [exact J|exact Hx| |].
    + intros v k l e m' w' t Hv Hl. exfalso.
      destruct (i_data _ _ _ J _ _ _ _ _ _ _ _ Hv Hl) as [[q Hq] _].
      destruct (U _ _ _ _ _ Hv Hl Hq). discriminate.
    + intros v. apply look_write. exact Hx.
  - split; [exact A|exact J].
  - apply andb_true_iff in Hok as [Hk Ha].
    destruct (access_out _ st _ _ _ L Ha) as [(a & b & Eg & Es & Ea & Hx) U].
    unfold has_kind in Hk. rewrite Eg in Hk. apply kind_eqb_eq in Hk.
    split; [apply agree_write; exact A|].
    pose proof (i_fits _ _ _ J _ _ _ _ Hx) as F. rewrite Hk in F, Hx.
    destruct b as [gb [m w|[] o m w t]]; cbn in F; try discriminate.
    assert (Lv : live (Write v :: rest) v) by (apply live_touched; reflexivity).
    cbn [d_cell] in Hx.
    destruct (i_data _ _ _ I _ _ _ _ _ _ _ _ Hx Lv) as [_ (ko & lo & w' & Ho & _)].
    assert (OO : owner_of st v = o) by (unfold owner_of; rewrite Es; reflexivity). rewrite OO.
    eapply (inv_write (look g st)) with (o := o) (mv' := m + 0); [exact J|exact Ho| |].
    + intros u k l e m' w'' t' Hu Hl. split; [|lia].
      destruct e; [reflexivity|]. exfalso.
      pose proof (i_fits _ _ _ J _ _ _ _ Hu) as Fu. cbn in Fu. subst k.
      destruct (Nat.eq_dec v u) as [->|N]; [congruence|].
      destruct (i_pair _ _ _ I _ _ _ _ _ _ _ _ _ _ _ _ _ _ Hx Hu N Lv (live_cons _ _ _ Hl)) as [[q Hq]|[q Hq]].
      * destruct (U _ _ _ _ _ Hu Hl Hq). discriminate.
      * destruct (i_excl _ _ _ I _ _ _ _ _ Hx Lv Hq) as [_ Hs]. eapply Hs; eauto.
    + intros u. apply look_write. exact Ho.
  - destruct (access_out _ st _ _ _ L Hok) as [(a & b & Eg & Es & Ea & Hx) U].
    split; [apply agree_end; exact A|].
    assert (Len : length (s_end x g) = length g) by (unfold s_end; rewrite Eg; apply length_set). rewrite Len.
    apply (inv_end (look g st)) with (x := x); [exact J|exact U|]. intros v. apply look_end. exact L.
Qed.

(** ** The statements *)

Definition sound_use (st : list dvar) (v : nat) : Prop :=
  still_there st v /\ data_alive st v /\ table_alive st v /\ unchanged st v.

Lemma look_there : forall g st v, agree g st -> look g st v <> None -> still_there st v.
Proof.
  intros g st v [L A] H. destruct (look g st v) as [[[k l] c]|] eqn:E; [|congruence].
  apply look_some in E as (a & [gb c'] & Ha & Hb & Hg & _). pose proof (A _ _ _ Ha Hb) as Q. cbn in Q.
  rewrite Hg in Q. subst gb. exists c'. exact Hb.
Qed.
Lemma look_cell : forall g st v k l c, agree g st -> look g st v = Some (k, l, c) ->
  nth_error st v = Some (DVar false c).
Proof.
  intros g st v k l c [L A] E. apply look_some in E as (a & [gb c'] & Ha & Hb & Hg & _ & _ & ->).
  pose proof (A _ _ _ Ha Hb) as Q. cbn in Q. rewrite Hg in Q. subst gb. exact Hb.
Qed.

Lemma use_sound : forall g st s rest v,
  agree g st -> inv (look g st) (length g) (s :: rest) -> stmt_ok g s rest = true -> touches s v ->
  sound_use st v.
Proof.
  intros g st s rest v A I Hok Ht. pose proof (proj1 A) as L.
  assert (Hv : exists k l c, look g st v = Some (k, l, c)).
  { unfold touches in Ht. destruct s as [|f x|x|x|x|x]; cbn in Ht; try discriminate; injection Ht as ->;
      cbn [stmt_ok] in Hok; try (apply andb_true_iff in Hok as [_ Hok]);
      destruct (access_out _ st _ _ _ L Hok) as [(a & b & _ & _ & _ & Hx) _]; eauto. }
  destruct Hv as (k & l & c & Hv). pose proof (live_touched _ rest _ Ht) as Lv.
  pose proof (look_cell _ _ _ _ _ _ A Hv) as Cv.
  split; [eapply look_there; [exact A|congruence]|]. split; [|split].
  - intros gone e o mv wr tab H. rewrite Cv in H. injection H as <- ->.
    destruct (i_data _ _ _ I _ _ _ _ _ _ _ _ Hv Lv) as [_ (ko & lo & w & Ho & _)].
    exists w. eapply look_cell; eauto.
  - intros gone e o mv wr h H. rewrite Cv in H. injection H as <- ->.
    destruct (i_table _ _ _ I _ _ _ _ _ _ _ _ Hv Lv) as [m Hm].
    eapply look_there; [exact A|]. eapply i_there; eauto.
  - intros gone o mv wr tab H. rewrite Cv in H. injection H as <- ->.
    destruct (i_data _ _ _ I _ _ _ _ _ _ _ _ Hv Lv) as [_ (ko & lo & w & Ho & Hw)].
    exists mv. rewrite <- (Hw eq_refl). eapply look_cell; eauto.
Qed.

Lemma run_sound : forall p g st,
  agree g st -> inv (look g st) (length g) p -> accepted_from g p = true ->
  (forall f x, In (Call f x) p -> honest f = true) ->
  forall before s rest v, p = before ++ s :: rest -> touches s v -> sound_use (d_run st before) v.
Proof.
  induction p as [|s0 p IH]; intros g st A I Hacc Hon before s rest v E Ht; [destruct before; discriminate|].
  cbn in Hacc. apply andb_true_iff in Hacc as [Hok Hacc].
  destruct before as [|s1 before].
  - injection E as -> ->. cbn. eapply use_sound; eauto.
  - injection E as -> ->. cbn [d_run].
    destruct (step_inv _ _ _ _ A I Hok) as [A' I'].
    { intros f x ->. apply (Hon f x). left. reflexivity. }
    eapply IH; eauto. intros f x H. apply (Hon f x). right. exact H.
Qed.

Lemma accepted_sound : forall p, accepted p = true ->
  (forall f x, In (Call f x) p -> honest f = true) -> whenever_used p sound_use.
Proof.
  intros p Hacc Hon before s rest v E Ht. unfold after.
  apply (run_sound p [] []) with (s := s) (rest := rest); auto.
  - split; [reflexivity|]. intros [|v0] a b H; discriminate.
  - split; intros v0; intros; unfold look in *; destruct v0; discriminate.
Qed.

Lemma linked_honest : forall f, linked f -> honest f = true.
Proof.
  intros f (Hin & N1 & N2).
  assert (H : forallb (fun f => honest f || String.eqb (f_name f) "SliceCopy::from_slice"
                                || String.eqb (f_name f) "Slice::from_slice") dync_api = true)
    by (vm_compute; reflexivity).
  rewrite forallb_forall in H. specialize (H f Hin).
  apply orb_true_iff in H as [H|H]; [apply orb_true_iff in H as [H|H]; [exact H|]|];
    apply String.eqb_eq in H; contradiction.
Qed.

(** ** The facts *)

Lemma c53_partial_fact : forall p,
  accepted p = true -> only_calls p linked ->
  whenever_used p (fun memory v => still_there memory v /\ data_alive memory v /\ table_alive memory v).
Proof.
  intros p Hacc Hl before s rest v E Ht.
  destruct (accepted_sound p Hacc (fun f x H => linked_honest f (Hl f x H)) before s rest v E Ht) as (A & B & C & D).
  auto.
Qed.

Lemma c70_partial_fact : forall p,
  accepted p = true -> only_calls p linked -> whenever_used p unchanged.
Proof.
  intros p Hacc Hl before s rest v E Ht.
  destruct (accepted_sound p Hacc (fun f x H => linked_honest f (Hl f x H)) before s rest v E Ht) as (A & B & C & D).
  exact D.
Qed.

(** The two constructors whose argument has a lifetime of its own. *)
Lemma c53_refuted_fact : forall name,
  name = "SliceCopy::from_slice"%string \/ name = "Slice::from_slice"%string ->
  exists f, In f dync_api /\ f_name f = name /\
    let p := [New; Call f 0; Drop 0; Read 1] in
    accepted p = true /\ ~ data_alive (after [New; Call f 0; Drop 0]) 1.
Proof.
  intros name H.
  assert (G : exists f, In f dync_api /\ f_name f = name /\ f = Fn name Owner ByRef Shared ToNothing Itself).
  { destruct H as [-> | ->]; eexists; (split; [|split; [|reflexivity]; reflexivity]); cbn; auto 60. }
  destruct G as (f & Hin & Hn & ->). eexists. split; [exact Hin|]. split; [exact Hn|]. cbn zeta.
  split; [reflexivity|]. intros D. cbn in D.
  destruct (D _ _ _ _ _ _ eq_refl) as [w Hw]. discriminate.
Qed.

Lemma c70_refuted_fact :
  exists f g, In f dync_api /\ In g dync_api /\
    let p := [New; Call f 0; Call g 0; Write 2; Read 1] in
    accepted p = true /\ ~ unchanged (after [New; Call f 0; Call g 0; Write 2]) 1.
Proof.
  exists (Fn "SliceCopy::from_slice"%string Owner ByRef Shared ToNothing Itself),
    (Fn "SliceCopyMut::from_slice"%string Owner ByMut Exclusive ToCall Itself).
  split; [cbn; auto|]. split; [cbn; auto 30|]. cbn zeta. split; [reflexivity|].
  intros D. cbn in D. destruct (D _ _ _ _ _ eq_refl) as [m Hm]. discriminate.
Qed.
