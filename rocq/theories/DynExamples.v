(** * DynExamples: concrete types, a table, and a program used beside the theorems about [VecDyn]
    and owned values. *)

From Verif Require Export Examples DynFacts DynFacts2 DynFacts3 DynFacts4 DynFacts5 DynFacts6 DynFacts7 DynFacts8.
From Verif Require Export DynReach DynTable DynTableFacts Extra ExtraFacts.

(** A table with all the built-in traits: what [dync_trait] writes for a trait with the
    supertraits Clone, PartialEq, Hash and Debug. *)
Record AllVTable : Type := MkAll {
  av_drop : drop_ptr; av_clone : clone_ptr; av_clone_from : clone_from_ptr;
  av_clone_raw : clone_raw_ptr; av_eq : eq_ptr; av_hash : hash_ptr; av_fmt : fmt_ptr }.
Global Instance All_drop : HasDrop AllVTable := {| drop_fn := av_drop |}.
Global Instance All_clone : HasClone AllVTable :=
  {| clone_fn := av_clone; clone_from_fn := av_clone_from; clone_into_raw_fn := av_clone_raw |}.
Global Instance All_eq : HasPartialEq AllVTable := {| eq_fn := av_eq |}.
Global Instance All_hash : HasHash AllVTable := {| hash_fn := av_hash |}.
Global Instance All_debug : HasDebug AllVTable := {| fmt_fn := av_fmt |}.
Global Instance All_build : VTable AllVTable :=
  {| build_vtable := fun t =>
       MkAll (DropOf t) (CloneOf t) (CloneFromOf t) (CloneRawOf t) (EqOf t) (HashOf t) (FmtOf t) |}.
Global Instance All_sized : Sized AllVTable := {| table_layout := (56, 8) |}.
Global Instance All_lawful : Lawful AllVTable.
Proof. constructor; reflexivity. Qed.
Global Instance All_full : FullTable AllVTable := {}.

(** Types as in [ex_env], with destructors that do not panic.  Values are equal if they are the
    same number, and print as "even" or "odd". *)
Definition parity (v : payload) : string := (if Z.even v then "even" else "odd")%string.
Definition quiet (s a : N) (copy : bool) : tinfo :=
  TInfo s a copy (fun _ v => Some (if s =? 0 then 0%Z else v)) (fun _ _ => false) Z.eqb
        (fun v => [Z.to_N v]) parity.
(** Cloning the value 13 panics. *)
Definition touchy (s a : N) : tinfo :=
  TInfo s a false (fun _ v => if Z.eqb v 13 then None else Some (if s =? 0 then 0%Z else v))
        (fun _ _ => false) Z.eqb (fun v => [Z.to_N v]) parity.
(** A float: the value 99 stands for NaN. *)
Definition floating (s a : N) : tinfo :=
  TInfo s a true (fun _ v => Some (if s =? 0 then 0%Z else v)) (fun _ _ => false)
        (fun v v' => Z.eqb v v' && negb (Z.eqb v 99))%bool (fun v => [Z.to_N v]) parity.

Definition dyn_env : tenv := fun t =>
  if t =? 0 then quiet 0 1 true
  else if t =? 1 then quiet 1 1 true
  else if t =? 2 then quiet 4 4 true
  else if t =? 3 then quiet 3 1 true
  else if t =? 4 then quiet 12 4 true
  else if t =? 5 then quiet 0 1 true
  else if t =? 6 then quiet 24 8 false
  else if t =? 7 then quiet 16384 16384 true
  else if t =? 8 then quiet 2 2 true
  else if t =? 9 then floating 4 4
  else if t =? 10 then quiet 8 8 false
  else if t =? 11 then touchy 8 8
  else if t =? 12 then quiet 8 8 true
  else if t =? 13 then quiet 1 1 false
  else quiet 8 8 true.

Lemma dyn_env_ok : types_ok dyn_env.
Proof.
  constructor.
  - split; try reflexivity. intros t. unfold dyn_env.
    repeat (match goal with |- context [if ?b then _ else _] => destruct b end; [split; cbn; [|reflexivity|vm_compute; discriminate]|]).
    all: try (split; cbn; [|reflexivity|vm_compute; discriminate]).
    all: unfold legal_align, quiet, touchy, floating; cbn [t_align].
    all: first [exists 0; split; [lia|reflexivity] | exists 1; split; [lia|reflexivity]
               |exists 2; split; [lia|reflexivity] | exists 3; split; [lia|reflexivity]
               |exists 14; split; [lia|reflexivity]].
  - intros t h v c Hc. unfold is_value. revert Hc. unfold dyn_env.
    repeat (match goal with |- context [if t =? ?k then _ else _] => destruct (t =? k) end; [|]).
    all: unfold quiet, touchy, floating; cbn [t_clone t_size].
    all: repeat match goal with |- context [if (?v =? 13)%Z then _ else _] => destruct (v =? 13)%Z end.
    all: intros E Hz; try discriminate; injection E as <-; try reflexivity; discriminate Hz.
  - intros t h v. unfold dyn_env.
    repeat (match goal with |- context [if ?b then _ else _] => destruct b end; [reflexivity|]).
    reflexivity.
Qed.

Notation dst := (dstate (V := AllVTable)).

(** Vectors 0-4 and 12-13, owned values 5-11. *)
Definition p_dyn : list dstep :=
  [DFromVec ty_string 4 [1; 2; 3]%Z;      (* 0 *)
   DFromVec ty_string 2 [1; 2]%Z;         (* 1: becomes 1 2 3 below *)
   DFromVec ty_moody 4 [1; 13]%Z;         (* 2 *)
   DFromVec ty_tag 4 [1; 2]%Z;            (* 3 *)
   DFromVec ty_u8x3 2 [7]%Z;              (* 4 *)
   OBox ty_string 7%Z;                    (* 5 *)
   OBox ty_string 8%Z;                    (* 6 *)
   OBox ty_tag 9%Z;                       (* 7 *)
   OBox ty_u8x3 5%Z;                      (* 8 *)
   OSmall ty_box 4%Z;                     (* 9 *)
   OSmall ty_usize 6%Z;                   (* 10 *)
   OBox ty_moody 13%Z;                    (* 11 *)
   DFromVec ty_string 2 [1; 2]%Z;         (* 12 *)
   DPushCloned 1 (FromVec 0 2);
   DFromVec ty_f32 2 [99]%Z].             (* 13 *)

Definition dfinal (P : profile) : dst := snd (drun P dyn_env p_dyn d_init).
Definition dvec_dummy : vecdyn AllVTable := VecCopy vv_default (build_vtable 0).
Definition dval_dummy : value AllVTable := Value Inline [] 0 1 None (build_vtable 0).
Definition dvec (P : profile) (h : nat) : vecdyn AllVTable :=
  match dget (dfinal P) h with Some (OVec b) => b | _ => dvec_dummy end.
Definition dval (P : profile) (k : nat) : value AllVTable :=
  match dget (dfinal P) k with Some (OVal v) => v | _ => dval_dummy end.
Definition dmem (P : profile) : world := d_world (dfinal P).
(** A reference of the program. *)
Definition dref (P : profile) (s : source) : vref AllVTable :=
  match get_source P dyn_env (dfinal P) s with
  | inr (Ret r) => r
  | _ => vl_as_ref dval_dummy
  end.

Ltac typed_dprog := repeat (constructor; [vm_compute; auto; intuition (try discriminate; auto); repeat constructor; try discriminate|]); constructor.

Lemma dfinal_reachable P : P = dev \/ P = release -> dreachable P dyn_env (dfinal P).
Proof.
  intros HP. exists p_dyn. csplit; [typed_dprog| |reflexivity].
  destruct HP as [-> | ->]; vm_compute; intuition (try discriminate; auto).
Qed.

Lemma dvec_live P h :
  P = dev \/ P = release -> (h < 5 \/ 12 <= h < 14)%nat -> live_vec P dyn_env (dvec P h) (dmem P).
Proof.
  intros HP Hh. exists (dfinal P), h. csplit; [now apply dfinal_reachable| |reflexivity].
  destruct HP as [-> | ->];
    do 14 (destruct h as [|h]; [try lia; vm_compute; reflexivity|]); lia.
Qed.
Lemma dval_live P k : P = dev \/ P = release -> (5 <= k < 12)%nat -> live_val P dyn_env (dval P k) (dmem P).
Proof.
  intros HP Hh. exists (dfinal P), k. csplit; [now apply dfinal_reachable| |reflexivity].
  destruct HP as [-> | ->];
    do 14 (destruct k as [|k]; [try lia; vm_compute; reflexivity|]); lia.
Qed.
Lemma dvecs_live P h h' : P = dev \/ P = release -> (h < 5)%nat -> (h' < 5)%nat -> h <> h' ->
  live_vecs P dyn_env (dvec P h) (dvec P h') (dmem P).
Proof.
  intros HP Hh Hh' Hne. exists (dfinal P), h, h'.
  csplit; [now apply dfinal_reachable|assumption| | |reflexivity]; destruct HP as [-> | ->].
  1,2: do 5 (destruct h as [|h]; [vm_compute; reflexivity|]); lia.
  all: do 5 (destruct h' as [|h']; [vm_compute; reflexivity|]); lia.
Qed.
Lemma dvals_live P k k' : P = dev \/ P = release -> (5 <= k < 12)%nat -> (5 <= k' < 12)%nat -> k <> k' ->
  live_vals P dyn_env (dval P k) (dval P k') (dmem P).
Proof.
  intros HP Hh Hh' Hne. exists (dfinal P), k, k'.
  csplit; [now apply dfinal_reachable|assumption| | |reflexivity]; destruct HP as [-> | ->].
  1,2: do 14 (destruct k as [|k]; [try lia; vm_compute; reflexivity|]); lia.
  all: do 14 (destruct k' as [|k']; [try lia; vm_compute; reflexivity|]); lia.
Qed.
Lemma dvec_val_live P h k : P = dev \/ P = release -> (h < 5)%nat -> (5 <= k < 12)%nat ->
  live_vec_val P dyn_env (dvec P h) (dval P k) (dmem P).
Proof.
  intros HP Hh Hk. exists (dfinal P), h, k.
  csplit; [now apply dfinal_reachable| | |reflexivity]; destruct HP as [-> | ->].
  1,2: do 5 (destruct h as [|h]; [vm_compute; reflexivity|]); lia.
  all: do 14 (destruct k as [|k]; [try lia; vm_compute; reflexivity|]); lia.
Qed.


(** References to a user's String, to elements and to owned values. *)
Lemma dref_live P s : P = dev \/ P = release ->
  s = FromUser ty_string 21%Z \/ s = FromVec 1 2 \/ s = FromVec 2 1 \/ s = FromVal 9 \/ s = FromVal 11 \/ s = FromVal 6 \/ s = FromVal 8 ->
  live_ref P dyn_env (dref P s) (dmem P).
Proof.
  intros HP Hs. exists (dfinal P), s.
  csplit; [now apply dfinal_reachable| | | |reflexivity].
  - destruct Hs as [-> | [-> | [-> | [-> | [-> | [-> | ->]]]]]]; vm_compute; auto; discriminate.
  - destruct Hs as [-> | [-> | [-> | [-> | [-> | [-> | ->]]]]]]; destruct HP as [-> | ->];
      vm_compute; auto; intuition discriminate.
  - destruct Hs as [-> | [-> | [-> | [-> | [-> | [-> | ->]]]]]]; destruct HP as [-> | ->];
      vm_compute; reflexivity.
Qed.
Lemma dvec_ref_live P h s : P = dev \/ P = release -> (h = 0 \/ h = 2)%nat ->
  s = FromUser ty_string 21%Z \/ s = FromVec 1 2 \/ s = FromVal 11 \/ s = FromVal 6 ->
  live_vec_ref P dyn_env (dvec P h) (dref P s) (dmem P).
Proof.
  intros HP Hh Hs. exists (dfinal P), h, s.
  csplit; [now apply dfinal_reachable| | | | | |reflexivity].
  - destruct Hh as [-> | ->]; destruct HP as [-> | ->]; vm_compute; reflexivity.
  - destruct Hs as [-> | [-> | [-> | ->]]]; vm_compute; auto; discriminate.
  - destruct Hs as [-> | [-> | [-> | ->]]]; destruct HP as [-> | ->];
      vm_compute; auto; intuition discriminate.
  - destruct Hh as [-> | ->]; destruct Hs as [-> | [-> | [-> | ->]]]; reflexivity.
  - destruct Hs as [-> | [-> | [-> | ->]]]; destruct HP as [-> | ->]; vm_compute; reflexivity.
Qed.
Lemma dval_ref_live P k s : P = dev \/ P = release -> (k = 5 \/ k = 9)%nat ->
  s = FromUser ty_string 21%Z \/ s = FromVec 1 2 \/ s = FromVal 11 \/ s = FromVal 6 ->
  live_val_ref P dyn_env (dval P k) (dref P s) (dmem P).
Proof.
  intros HP Hh Hs. exists (dfinal P), k, s.
  csplit; [now apply dfinal_reachable| | | | | |reflexivity].
  - destruct Hh as [-> | ->]; destruct HP as [-> | ->]; vm_compute; reflexivity.
  - destruct Hs as [-> | [-> | [-> | ->]]]; vm_compute; auto; discriminate.
  - destruct Hs as [-> | [-> | [-> | ->]]]; destruct HP as [-> | ->];
      vm_compute; auto; intuition discriminate.
  - destruct Hh as [-> | ->]; destruct Hs as [-> | [-> | [-> | ->]]]; reflexivity.
  - destruct Hs as [-> | [-> | [-> | ->]]]; destruct HP as [-> | ->]; vm_compute; reflexivity.
Qed.

(** What the objects hold. *)
Lemma dvec_contents P : P = dev \/ P = release ->
  contents dyn_env (dvec P 0) ty_string [1; 2; 3]%Z /\
  contents dyn_env (dvec P 1) ty_string [1; 2; 3]%Z /\
  contents dyn_env (dvec P 2) ty_moody [1; 13]%Z /\
  contents dyn_env (dvec P 3) ty_tag [1; 2]%Z /\
  contents dyn_env (dvec P 4) ty_u8x3 [7]%Z /\
  contents dyn_env (dvec P 12) ty_string [1; 2]%Z.
Proof. intros [-> | ->]; (csplit; (split; [discriminate|vm_compute; reflexivity])). Qed.
Lemma dval_is P : P = dev \/ P = release ->
  value_is dyn_env (dval P 5) ty_string 7%Z /\ value_is dyn_env (dval P 6) ty_string 8%Z /\
  value_is dyn_env (dval P 7) ty_tag 9%Z /\ value_is dyn_env (dval P 8) ty_u8x3 5%Z /\
  value_is dyn_env (dval P 9) ty_box 4%Z /\ value_is dyn_env (dval P 10) ty_usize 6%Z /\
  value_is dyn_env (dval P 11) ty_moody 13%Z.
Proof. intros [-> | ->]; (csplit; (repeat split; vm_compute; reflexivity)). Qed.
Lemma dref_is P : P = dev \/ P = release ->
  ref_is dyn_env (dref P (FromUser ty_string 21%Z)) ty_string 21%Z /\
  ref_is dyn_env (dref P (FromVec 1 2)) ty_string 3%Z /\
  ref_is dyn_env (dref P (FromVec 2 1)) ty_moody 13%Z /\
  ref_is dyn_env (dref P (FromVal 6)) ty_string 8%Z /\
  ref_is dyn_env (dref P (FromVal 8)) ty_u8x3 5%Z /\
  ref_is dyn_env (dref P (FromVal 9)) ty_box 4%Z /\
  ref_is dyn_env (dref P (FromVal 11)) ty_moody 13%Z.
Proof. intros [-> | ->]; (csplit; (split; vm_compute; reflexivity)). Qed.

(** The same types, but dropping the value 66 panics. *)
Definition edgy_env : tenv := fun t =>
  TInfo (t_size (dyn_env t)) (t_align (dyn_env t)) (t_copy (dyn_env t)) (t_clone (dyn_env t))
        (fun _ v => Z.eqb v 66) (t_eq (dyn_env t)) (t_hash (dyn_env t)) (t_fmt (dyn_env t)).
Lemma edgy_env_ok : wf_tenv edgy_env /\ clones_ok edgy_env.
Proof.
  destruct dyn_env_ok as [[H1 H2 H3 H4] HC _]. split; [|exact HC].
  constructor; try assumption. intros t. destruct (H1 t). now constructor.
Qed.

(** Vectors with elements whose destructor panics, after a vector was dropped in which one did. *)
Definition p_panic : list dstep :=
  [DFromVec ty_string 4 [1; 66; 2]%Z; DCall 0 (VPushAs ty_string 66%Z); DFromVec ty_string 2 [5; 6]%Z;
   DFromVec ty_string 2 [4; 66; 3]%Z; DDrop 2].
Definition pstate (P : profile) : dstate (V := AllVTable) := snd (drun P edgy_env p_panic d_init).
Definition pvec (P : profile) (h : nat) : vecdyn AllVTable :=
  match dget (pstate P) h with Some (OVec b) => b | _ => dvec_dummy end.
Definition pmem (P : profile) : world := d_world (pstate P).

Lemma pvec_live P h : P = dev \/ P = release -> (h < 2)%nat -> running_vec P edgy_env (pvec P h) (pmem P).
Proof.
  intros HP Hh. exists p_panic, h.
  csplit; [typed_dprog| | | |reflexivity].
  - destruct HP as [-> | ->]; vm_compute; intuition (try discriminate; auto).
  - destruct HP as [-> | ->]; vm_compute; intuition discriminate.
  - destruct HP as [-> | ->]; do 2 (destruct h as [|h]; [vm_compute; reflexivity|]); lia.
Qed.
