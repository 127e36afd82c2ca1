(** * PropertiesNumeric: the properties of numeric buffers (feature "numeric").

    Every theorem is closed by a lemma proved in another file.  The words used in the statements are
    defined in NumericSpec.v ([num_value], [representable], [stands_for], [closest], [same_or_zero],
    [converted] ...). *)

From Coq Require Import QArith.
From Verif Require Import Reach DynReach Examples DynExamples.
From Verif Require Import Numeric NumericSpec NumericFacts.
Local Open Scope Z_scope.

(** Type ids for the number types, and one type that is no number ([bool], number 20). *)
Definition nid_ex (k : numty) : tyid :=
  match k with
  | U8 => 1 | I8 => 2 | U16 => 3 | I16 => 4 | U32 => 5 | I32 => 6 | U64 => 7 | I64 => 8
  | F32 => 9 | F64 => 10 | Usize => 11 | Isize => 12 | U128 => 13 | I128 => 14
  end%N.
Definition num_env : tenv := fun t =>
  (if t =? 0 then quiet 0 1 true
   else if (t <=? 2) || (t =? 20) then quiet 1 1 true
   else if t <=? 4 then quiet 2 2 true
   else if (t <=? 6) || (t =? 9) then quiet 4 4 true
   else if (t <=? 8) || (t <=? 12) then quiet 8 8 true
   else quiet 16 16 true)%N.
Lemma num_env_ids : number_ids num_env nid_ex.
Proof. split; [intros [] []; cbn; congruence|intros []; reflexivity]. Qed.
(** Buffers of f64 [-3.7, 1e300, 0.5, NaN], of f64 [1.5], of i32 [2^24 + 1, -1], of usize [7], of
    bool [1] and of i32 [2^24 + 1]. *)
Definition floats_ex : list payload :=
  [13838886114965428634; 9094988921128908188; 4602678819172646912; 9221120237041090560].
Definition p_num : list step :=
  [MNew (KFromVec (nid_ex F64) 4%N floats_ex); MNew (KFromVec (nid_ex F64) 1%N [one_and_a_half]);
   MNew (KFromVec (nid_ex I32) 2%N [16777217; -1]); MNew (KFromVec (nid_ex Usize) 1%N [7]);
   MNew (KFromVec 20%N 1%N [1]); MNew (KFromVec (nid_ex I32) 1%N [16777217])].
Definition num_buf (h : nat) : veccopy N := nth_buf h (snd (run dev num_env ex_build p_num c_init)).
Example num_buf_live : forall h, (h < 6)%nat ->
  live_buffer dev num_env ex_build (num_buf h) (c_world (snd (run dev num_env ex_build p_num c_init))).
Proof.
  intros h Hh. exists (snd (run dev num_env ex_build p_num c_init)), h. split.
  { exists p_num. split; [repeat constructor; vm_compute; tauto|]. split; [|reflexivity]. vm_compute. tauto. }
  split; [|reflexivity]. unfold num_buf, nth_buf.
  do 6 (destruct h as [|h]; [vm_compute; reflexivity|]). lia.
Qed.

(** ** C52 Numeric casting *)

(** The claim "zero otherwise" is false for fractions: 1.5 becomes 1. *)
@@ c52_fraction_refuted
(** ... and for integers that have no float: 2^24 + 1 becomes 2^24. *)
@@ c52_rounding_refuted
Example c52_refuted_ex :
  number_ids num_env nid_ex /\ shows num_env (num_buf 1) (nid_ex F64) [one_and_a_half] /\
  shows num_env (num_buf 5) (nid_ex I32) [16777217].
Proof.
  split; [exact num_env_ids|].
  split; (split; [vm_compute; discriminate|vm_compute; reflexivity]).
Qed.

(** What the cast does: the same number if there is one; else towards zero, or zero, for integers,
    and the closest one for floats. *)
@@ c52_vec_copy_partial
@@ c52_vec_dyn_partial
Example c52_vec_copy_ex :
  number_ids num_env nid_ex /\ shows num_env (num_buf 0) (nid_ex F64) floats_ex /\
  contents num_env (num_buf 0) (nid_ex F64) floats_ex /\
  Forall (number F64) floats_ex /\
  vc_cast_into_vec dev num_env nid_ex I8 (num_buf 0) = Ret [-3; 0; 0; 0] /\
  vc_cast_into_vec dev num_env nid_ex F32 (num_buf 0) = Ret [3228355789; 2139095040; 1056964608; 2143289344].
Proof.
  split; [exact num_env_ids|]. split; [split; [vm_compute; discriminate|vm_compute; reflexivity]|].
  split; [split; [vm_compute; discriminate|vm_compute; reflexivity]|].
  split; [repeat constructor; vm_compute; discriminate|]. split; vm_compute; reflexivity.
Qed.

(** Between integer types the property holds as stated. *)
@@ c52_integers_partial
Example c52_integers_ex :
  shows num_env (num_buf 2) (nid_ex I32) [16777217; -1] /\ Forall (number I32) [16777217; -1] /\ integer U64 /\
  vc_cast_into_vec dev num_env nid_ex U64 (num_buf 2) = Ret [16777217; 0].
Proof.
  split; [split; [vm_compute; discriminate|vm_compute; reflexivity]|].
  split; [repeat constructor; vm_compute; discriminate|]. split; [reflexivity|]. vm_compute; reflexivity.
Qed.

@@ c52_other_types
Example c52_other_types_ex :
  shows num_env (num_buf 4) 20%N [1] /\
  forall k, In k [U8; I8; U16; I16; U32; I32; U64; I64; F32; F64] -> nid_ex k <> 20%N.
Proof. split; [split; [vm_compute; discriminate|vm_compute; reflexivity]|]. intros []; cbn; congruence. Qed.
(** Among the other types are four number types, whose elements are lost. *)
@@ c52_wide_numbers_lost
Example c52_wide_numbers_lost_ex : shows num_env (num_buf 3) (nid_ex Usize) [7].
Proof. split; [vm_compute; discriminate|vm_compute; reflexivity]. Qed.

(** ** C69 Printing numeric buffers *)

@@ c69_prints_all
Example c69_prints_all_ex :
  shows num_env (num_buf 2) (nid_ex I32) [16777217; -1] /\
  vc_display dev num_env nid_ex (num_buf 2) (Writer [] None) = (Ret true, Writer [(I32, 16777217); (I32, -1)] None).
Proof. split; [split; [vm_compute; discriminate|vm_compute; reflexivity]|]. vm_compute; reflexivity. Qed.
@@ c69_other_types
Example c69_other_types_ex :
  shows num_env (num_buf 4) 20%N [1] /\
  forall k, In k [U8; I8; U16; I16; U32; I32; U64; I64; F32; F64] -> nid_ex k <> 20%N.
Proof. split; [split; [vm_compute; discriminate|vm_compute; reflexivity]|]. intros []; cbn; congruence. Qed.
(** An error of the writer is not returned: printing panics. *)
@@ c69_failing_writer_refuted
Example c69_failing_writer_ex :
  shows num_env (num_buf 2) (nid_ex I32) [16777217; -1] /\ wr_room (Writer [] (Some 1%nat)) = Some 1%nat.
Proof. split; [split; [vm_compute; discriminate|vm_compute; reflexivity]|reflexivity]. Qed.
