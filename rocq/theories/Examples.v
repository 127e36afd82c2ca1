(** * Examples: concrete types, programs and buffers used beside the property theorems. *)

From Verif Require Export CheckedFacts.

(** A type of size [s] and alignment [a]; [Copy], comparing and hashing by value. *)
Definition plain (s a : N) : tinfo :=
  TInfo s a true (fun _ v => Some v) (fun _ _ => false) Z.eqb (fun v => [Z.to_N v]) (fun _ => ""%string).
(** A type that is not [Copy]; cloning a value makes an equal value. *)
Definition owning (s a : N) : tinfo :=
  TInfo s a false (fun _ v => Some v) (fun _ _ => false) Z.eqb (fun v => [Z.to_N v]) (fun _ => ""%string).
(** A type that is not [Copy]; cloning the value 13 panics, dropping the value 66 panics. *)
Definition moody (s a : N) : tinfo :=
  TInfo s a false (fun _ v => if Z.eqb v 13 then None else Some v) (fun _ v => Z.eqb v 66)
        Z.eqb (fun v => [Z.to_N v]) (fun _ => ""%string).

Definition ty_unit : tyid := 0.
Definition ty_u8 : tyid := 1.
Definition ty_u32 : tyid := 2.
Definition ty_u8x3 : tyid := 3.     (* [u8; 3] *)
Definition ty_u32x3 : tyid := 4.    (* [u32; 3] *)
Definition ty_marker : tyid := 5.   (* a zero-sized struct *)
Definition ty_string : tyid := 6.   (* String: three words *)
Definition ty_huge : tyid := 7.     (* #[repr(align(16384))] *)
Definition ty_u16 : tyid := 8.
Definition ty_f32 : tyid := 9.
Definition ty_box : tyid := 10.     (* Box: one word *)
Definition ty_moody : tyid := 11.   (* one word, panicking clone and drop *)
Definition ty_usize : tyid := 12.
Definition ty_tag : tyid := 13.     (* one byte, not Copy *)

Definition ex_env : tenv := fun t =>
  if t =? 0 then plain 0 1
  else if t =? 1 then plain 1 1
  else if t =? 2 then plain 4 4
  else if t =? 3 then plain 3 1
  else if t =? 4 then plain 12 4
  else if t =? 5 then plain 0 1
  else if t =? 6 then owning 24 8
  else if t =? 7 then plain 16384 16384
  else if t =? 8 then plain 2 2
  else if t =? 9 then plain 4 4
  else if t =? 10 then owning 8 8
  else if t =? 11 then moody 8 8
  else if t =? 12 then plain 8 8
  else if t =? 13 then owning 1 1
  else plain 8 8.

Lemma ex_env_wf : wf_tenv ex_env.
Proof.
  split; try reflexivity. intros t. unfold ex_env.
  repeat (match goal with |- context [if ?b then _ else _] => destruct b end; [split; cbn; [|reflexivity|vm_compute; discriminate]|]).
  all: try (split; cbn; [|reflexivity|vm_compute; discriminate]).
  all: unfold legal_align, plain, owning, moody; cbn [t_align].
  all: first [exists 0; split; [lia|reflexivity] | exists 1; split; [lia|reflexivity]
             |exists 2; split; [lia|reflexivity] | exists 3; split; [lia|reflexivity]
             |exists 14; split; [lia|reflexivity]].
Qed.

(** The table of each type is just its name. *)
Definition ex_build (t : tyid) : N := t.

Notation cst := (cstate (V := N)).

(** A buffer number [h] of the final state of a program, and the final memory. *)
Definition dummy : veccopy N := VecCopy vv_default 0.
Definition nth_buf (h : nat) (st : cst) : veccopy N :=
  match get st h with Some b => b | None => dummy end.
Definition final (P : profile) (prog : list step) : cst := snd (run P ex_env ex_build prog c_init).
Definition buf (P : profile) (prog : list step) (h : nat) : veccopy N := nth_buf h (final P prog).
Definition mem (P : profile) (prog : list step) : world := c_world (final P prog).

Lemma buf_live P prog h :
  Forall (step_typed ex_env) prog -> in_range P ex_env ex_build prog c_init ->
  (exists b, get (final P prog) h = Some b) ->
  live_buffer P ex_env ex_build (buf P prog h) (mem P prog).
Proof.
  intros Ht Hi [b Hg]. exists (final P prog), h. csplit.
  - exists prog. auto.
  - unfold buf, nth_buf. now rewrite Hg.
  - reflexivity.
Qed.

Ltac typed_prog := repeat (constructor; [vm_compute; auto; repeat constructor|]); constructor.
Ltac live_example :=
  apply buf_live; [typed_prog | vm_compute; intuition (try discriminate; auto) | eexists; vm_compute; reflexivity].

(** [vec![10u32, 20, 30]] with capacity 4 as a [VecCopy]. *)
Definition p_u32 : list step := [MNew (KFromVec ty_u32 4 [10; 20; 30]%Z)].
Lemma u32_live P : P = dev \/ P = release -> live_buffer P ex_env ex_build (buf P p_u32 0) (mem P p_u32).
Proof. intros [-> | ->]; live_example. Qed.
Lemma u32_shows P : P = dev \/ P = release -> shows ex_env (buf P p_u32 0) ty_u32 [10; 20; 30]%Z.
Proof. intros [-> | ->]; split; [discriminate|vm_compute; reflexivity|discriminate|vm_compute; reflexivity]. Qed.

(** The same of [[u32; 3]]: the element is larger than its alignment. *)
Definition p_arr : list step := [MNew (KFromVec ty_u32x3 2 [1; 2]%Z)].
Lemma arr_live P : P = dev \/ P = release -> live_buffer P ex_env ex_build (buf P p_arr 0) (mem P p_arr).
Proof. intros [-> | ->]; live_example. Qed.
Lemma arr_shows P : P = dev \/ P = release -> shows ex_env (buf P p_arr 0) ty_u32x3 [1; 2]%Z.
Proof. intros [-> | ->]; split; [discriminate|vm_compute; reflexivity|discriminate|vm_compute; reflexivity]. Qed.

(** A buffer of one [[u8; 3]], capacity 1. *)
Definition p_odd : list step := [MNew (KFromVec ty_u8x3 1 [7]%Z)].
Lemma odd_live P : P = dev \/ P = release -> live_buffer P ex_env ex_build (buf P p_odd 0) (mem P p_odd).
Proof. intros [-> | ->]; live_example. Qed.
Lemma odd_shows P : P = dev \/ P = release -> shows ex_env (buf P p_odd 0) ty_u8x3 [7]%Z.
Proof. intros [-> | ->]; split; [discriminate|vm_compute; reflexivity|discriminate|vm_compute; reflexivity]. Qed.

(** Two buffers of u32 and one of u16, after some history. *)
Definition p_two : list step :=
  [MNew (KFromSlice ty_u32 [1; 2]%Z); MNew (KWithType ty_u32); MCall 1 (SPushAs ty_u32 5%Z);
   MCall 1 (SPush ty_u32 6%Z); MNew (KWithSize ty_u16 3 9%Z)].
Lemma two_pair P h h' : P = dev \/ P = release -> (h < 3)%nat -> (h' < 3)%nat -> h <> h' ->
  live_pair P ex_env ex_build (buf P p_two h) (buf P p_two h') (mem P p_two).
Proof.
  intros HP Hh Hh' Hne. exists (final P p_two), h, h'.
  assert (Hr : reachable P ex_env ex_build (final P p_two)).
  { exists p_two. csplit; [typed_prog| |reflexivity].
    destruct HP as [-> | ->]; vm_compute; intuition (try discriminate; auto). }
  destruct HP as [-> | ->];
    (destruct h as [|[|[|h]]]; [| | |lia]); (destruct h' as [|[|[|h']]]; [| | |lia]);
    try lia; (csplit; [exact Hr|assumption|vm_compute; reflexivity|vm_compute; reflexivity|reflexivity]).
Qed.
Lemma two_shows P : P = dev \/ P = release ->
  shows ex_env (buf P p_two 0) ty_u32 [1; 2]%Z /\ shows ex_env (buf P p_two 1) ty_u32 [5; 6]%Z /\
  shows ex_env (buf P p_two 2) ty_u16 [9; 9; 9]%Z.
Proof.
  intros [-> | ->]; (csplit; (split; [discriminate|vm_compute; reflexivity])).
Qed.

Lemma wf_w0 : wf_world w0.
Proof. constructor; cbn; [constructor|intros ? []]. Qed.
