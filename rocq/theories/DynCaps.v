(** * DynCaps: a table need only offer the functions that a program uses. *)

From Verif Require Import Derive DynReach DynMachineProofs.

(** What a table may offer beside dropping. *)
Inductive cap : Type := CapClone | CapEq | CapHash | CapFmt.

(** The table functions a step calls beside [drop_fn] (src/vec_dyn.rs:101-148, 450-472;
    src/value.rs:302-453, 527-735).  (The bounds of some methods ask for more than they call.) *)
Definition dcall_needs (c : dcall) : list cap :=
  match c with VHash => [CapHash] | VFmt => [CapFmt] | _ => [] end.
Definition needs (s : dstep) : list cap :=
  match s with
  | DClone _ | DPushCloned _ _ | DCloneFrom _ _ _ | DCloneFromAll _ _
  | OCloneBox _ | OCloneSmall _ | OClone _ | OCloneFrom _ _ => [CapClone]
  | DEq _ _ | OEq _ _ => [CapEq]
  | OHashVal _ => [CapHash]
  | OFmtVal _ => [CapFmt]
  | DCall _ c => dcall_needs c
  | _ => []
  end.

(** The functions of a table that was built for a type are those of the type. *)
Definition offers {V} `{HasClone V} `{HasPartialEq V} `{HasHash V} `{HasDebug V} `{VTable V}
    (c : cap) : Prop :=
  forall t : tyid,
  match c with
  | CapClone => clone_fn (build_vtable t) = CloneOf t /\ clone_from_fn (build_vtable t) = CloneFromOf t /\
                clone_into_raw_fn (build_vtable t) = CloneRawOf t
  | CapEq => eq_fn (build_vtable t) = EqOf t
  | CapHash => hash_fn (build_vtable t) = HashOf t
  | CapFmt => fmt_fn (build_vtable t) = FmtOf t
  end.

(** The trait of a capability. *)
Definition cap_trait (c : cap) : trait :=
  match c with CapClone => TClone | CapEq => TPartialEq | CapHash => THash | CapFmt => TDebug end.

(** There is a table with every function, built and dropped the same way, with which [prog] does the
    same: the same results, the same objects, the same calls of the elements' code. *)
Definition acts_full (V : Type) (D : HasDrop V) (C : HasClone V) (E : HasPartialEq V) (H : HasHash V)
    (F : HasDebug V) (B : VTable V) (S : Sized V) (P : profile) (G : tenv) (prog : list dstep) : Prop :=
  exists T : FullTable V,
    ft_drop = D /\ ft_build = B /\ ft_sized = S /\
    @drun V D C E H F B S P G prog d_init =
    @drun V ft_drop ft_clone ft_eq ft_hash ft_debug ft_build ft_sized P G prog d_init /\
    (@dyn_in_range V D C E H F B S P G prog d_init <->
     @dyn_in_range V ft_drop ft_clone ft_eq ft_hash ft_debug ft_build ft_sized P G prog d_init).

Section Caps.
Context {V : Type} {D : HasDrop V} {B : VTable V} {S : Sized V} (P : profile) (G : tenv).

Lemma step_same : forall (C C' : HasClone V) (E E' : HasPartialEq V) (H H' : HasHash V) (F F' : HasDebug V) s st,
  (In CapClone (needs s) -> C = C') -> (In CapEq (needs s) -> E = E') ->
  (In CapHash (needs s) -> H = H') -> (In CapFmt (needs s) -> F = F') ->
  run_dstep (H0 := C) (H1 := E) (H2 := H) (H3 := F) P G s st =
  run_dstep (H0 := C') (H1 := E') (H2 := H') (H3 := F') P G s st.
Proof.
  intros C C' E E' H H' F F' s st HC HE HH HF.
  destruct s;
    cbn [needs In] in *;
    try match goal with c : dcall |- _ => destruct c end; cbn [dcall_needs In] in *;
    try (rewrite (HC (or_introl eq_refl)));
    try (rewrite (HE (or_introl eq_refl)));
    try (rewrite (HH (or_introl eq_refl)));
    try (rewrite (HF (or_introl eq_refl))); try reflexivity.
Qed.

Lemma run_same : forall (C C' : HasClone V) (E E' : HasPartialEq V) (H H' : HasHash V) (F F' : HasDebug V) prog st,
  (In CapClone (flat_map needs prog) -> C = C') -> (In CapEq (flat_map needs prog) -> E = E') ->
  (In CapHash (flat_map needs prog) -> H = H') -> (In CapFmt (flat_map needs prog) -> F = F') ->
  drun (H0 := C) (H1 := E) (H2 := H) (H3 := F) P G prog st =
  drun (H0 := C') (H1 := E') (H2 := H') (H3 := F') P G prog st.
Proof.
  intros C C' E E' H H' F F'. induction prog as [|s prog IH]; intros st HC HE HH HF; [reflexivity|].
  cbn [flat_map] in *. cbn [drun].
  rewrite (step_same C C' E E' H H' F F' s st) by (intros Hi;
    first [apply HC; apply in_or_app; left; exact Hi | apply HE; apply in_or_app; left; exact Hi
          |apply HH; apply in_or_app; left; exact Hi | apply HF; apply in_or_app; left; exact Hi]).
  destruct (run_dstep P G s st) as [[r|p|u|] st']; try reflexivity;
    rewrite IH by (intros Hi;
    first [apply HC; apply in_or_app; right; exact Hi | apply HE; apply in_or_app; right; exact Hi
          |apply HH; apply in_or_app; right; exact Hi | apply HF; apply in_or_app; right; exact Hi]); reflexivity.
Qed.

Lemma range_same : forall (C C' : HasClone V) (E E' : HasPartialEq V) (H H' : HasHash V) (F F' : HasDebug V) prog st,
  (In CapClone (flat_map needs prog) -> C = C') -> (In CapEq (flat_map needs prog) -> E = E') ->
  (In CapHash (flat_map needs prog) -> H = H') -> (In CapFmt (flat_map needs prog) -> F = F') ->
  (dyn_in_range (H0 := C) (H1 := E) (H2 := H) (H3 := F) P G prog st <->
   dyn_in_range (H0 := C') (H1 := E') (H2 := H') (H3 := F') P G prog st).
Proof.
  intros C C' E E' H H' F F'. induction prog as [|s prog IH]; intros st HC HE HH HF; [reflexivity|].
  cbn [flat_map] in *. cbn [dyn_in_range].
  rewrite (step_same C C' E E' H H' F F' s st) by (intros Hi;
    first [apply HC; apply in_or_app; left; exact Hi | apply HE; apply in_or_app; left; exact Hi
          |apply HH; apply in_or_app; left; exact Hi | apply HF; apply in_or_app; left; exact Hi]).
  rewrite IH by (intros Hi;
    first [apply HC; apply in_or_app; right; exact Hi | apply HE; apply in_or_app; right; exact Hi
          |apply HH; apply in_or_app; right; exact Hi | apply HF; apply in_or_app; right; exact Hi]); reflexivity.
Qed.

(** What the missing functions would be. *)
Definition type_of (v : V) : tyid := match drop_fn v with DropOf t => t | _ => 0 end.
Definition made_clone : HasClone V :=
  {| clone_fn v := CloneOf (type_of v); clone_from_fn v := CloneFromOf (type_of v);
     clone_into_raw_fn v := CloneRawOf (type_of v) |}.
Definition made_eq : HasPartialEq V := {| eq_fn v := EqOf (type_of v) |}.
Definition made_hash : HasHash V := {| hash_fn v := HashOf (type_of v) |}.
Definition made_fmt : HasDebug V := {| fmt_fn v := FmtOf (type_of v) |}.

Definition cap_dec : forall a b : cap, {a = b} + {a <> b}.
Proof. decide equality. Defined.

Lemma full_table : forall (C : HasClone V) (E : HasPartialEq V) (H : HasHash V) (F : HasDebug V) prog,
  (forall t, drop_fn (build_vtable t) = DropOf t) ->
  (forall s c, In s prog -> In c (needs s) -> offers c) ->
  acts_full V D C E H F B S P G prog.
Proof.
  intros C E H F prog HD Hoff.
  assert (Ho : forall c, In c (flat_map needs prog) -> offers c).
  { intros c Hc. apply in_flat_map in Hc. destruct Hc as (s & Hs & Hc). exact (Hoff s c Hs Hc). }
  assert (Ht : forall t, type_of (build_vtable t) = t).
  { intros t. unfold type_of. rewrite HD. reflexivity. }
  pose (C' := if in_dec cap_dec CapClone (flat_map needs prog) then C else made_clone).
  pose (E' := if in_dec cap_dec CapEq (flat_map needs prog) then E else made_eq).
  pose (H' := if in_dec cap_dec CapHash (flat_map needs prog) then H else made_hash).
  pose (F' := if in_dec cap_dec CapFmt (flat_map needs prog) then F else made_fmt).
  assert (L : @Lawful V D C' E' H' F' B).
  { split; intros t; subst C' E' H' F'.
    - apply HD.
    - destruct (in_dec _ _ _) as [i|n]; [apply (Ho _ i t)|cbn; rewrite Ht; reflexivity].
    - destruct (in_dec _ _ _) as [i|n]; [apply (Ho _ i t)|cbn; rewrite Ht; reflexivity].
    - destruct (in_dec _ _ _) as [i|n]; [apply (Ho _ i t)|cbn; rewrite Ht; reflexivity].
    - destruct (in_dec _ _ _) as [i|n]; [apply (Ho _ i t)|cbn; rewrite Ht; reflexivity].
    - destruct (in_dec _ _ _) as [i|n]; [apply (Ho _ i t)|cbn; rewrite Ht; reflexivity].
    - destruct (in_dec _ _ _) as [i|n]; [apply (Ho _ i t)|cbn; rewrite Ht; reflexivity]. }
  exists (@Build_FullTable V D C' E' H' F' B S L).
  split; [reflexivity|]. split; [reflexivity|]. split; [reflexivity|].
  assert (HC : In CapClone (flat_map needs prog) -> C = C')
    by (intros Hi; unfold C'; destruct (in_dec cap_dec CapClone (flat_map needs prog)); [reflexivity|contradiction]).
  assert (HE : In CapEq (flat_map needs prog) -> E = E')
    by (intros Hi; unfold E'; destruct (in_dec cap_dec CapEq (flat_map needs prog)); [reflexivity|contradiction]).
  assert (HH : In CapHash (flat_map needs prog) -> H = H')
    by (intros Hi; unfold H'; destruct (in_dec cap_dec CapHash (flat_map needs prog)); [reflexivity|contradiction]).
  assert (HF : In CapFmt (flat_map needs prog) -> F = F')
    by (intros Hi; unfold F'; destruct (in_dec cap_dec CapFmt (flat_map needs prog)); [reflexivity|contradiction]).
  split; [exact (run_same C C' E E' H H' F F' prog d_init HC HE HH HF)
         |exact (range_same C C' E E' H H' F F' prog d_init HC HE HH HF)].
Qed.

End Caps.
