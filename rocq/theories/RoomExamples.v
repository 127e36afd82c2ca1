(** * RoomExamples: a full buffer that cannot grow. *)

From Verif Require Import CopyFacts4 RoomFacts.
From Verif Require Export Examples.

(** A buffer of one element and capacity one, of any type that is not zero-sized. *)
Lemma one_live (G : tenv) (HG : wf_tenv G) t v :
  t_size (G t) <> 0 -> t_copy (G t) = true -> t_size (G t) <= max_alloc (t_align (G t)) ->
  exists b w, live_buffer release G ex_build b w /\ shows G b t [v] /\ vc_capacity b = 1.
Proof.
  intros Hz Hc Hm.
  assert (HO : Owns w0 []) by (split; [apply wf_w0|reflexivity]).
  destruct (vec_make_spec G t 1 [v] w0 _ Hz HO) as [(i & w1 & HE & Hok & HO1 & _)|[_ Hbad]].
  2:{ change (lenN [v]) with 1 in Hbad. lia. }
  destruct (vc_from_vec_any G HG t i _ [v] (ex_build t) w1 _ Hz Hok HO1)
    as (d & w' & HF & HR & HO' & _ & _ & Hcap).
  exists (VecCopy d (ex_build t)), w'. csplit.
  - exists (CState [Some (VecCopy d (ex_build t))] w'), 0%nat. csplit; try reflexivity.
    exists [MNew (KFromVec t 1 [v])]. csplit.
    + constructor; [exact Hc|constructor].
    + cbn. auto.
    + cbn [run snd run_step]. unfold run_ctor. cbn [c_world c_init]. rewrite HE. rewrite HF. reflexivity.
  - now shw.
  - unfold vc_capacity. cbn [vc_data]. apply Hcap. unfold lenN. cbn. lia.
Qed.

Definition big_env : tenv := fun t => if t =? 0 then plain 0 1 else plain 4611686018427387904 1.
Lemma big_env_wf : wf_tenv big_env.
Proof.
  split; try reflexivity. intros t. unfold big_env.
  destruct (t =? 0); (split; cbn; [|reflexivity|vm_compute; discriminate]).
  all: exists 0; split; [lia|reflexivity].
Qed.
Lemma big_live :
  exists b w, live_buffer release big_env ex_build b w /\ shows big_env b 1 [7]%Z /\ vc_capacity b = 1.
Proof. apply one_live; [apply big_env_wf|discriminate|reflexivity|vm_compute; discriminate]. Qed.
