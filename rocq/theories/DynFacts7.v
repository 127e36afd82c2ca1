(** * DynFacts7: destructors that panic, and the same types with destructors that return. *)

From Verif Require Export DynFacts6.
From Verif Require Import CopyFacts2 SliceFacts UpcastFacts.
From Verif Require Import DynReach.

Lemma drop_chunks_seq G t xs w ds ok :
  t_size (G t) <> 0 -> drop_seq G t (w_trace w) xs = (ds, ok) ->
  drop_chunks G (DropOf t) (map (enc G t) xs) w =
  (if ok then Ret tt else Panic PUser, set_tr (w_trace w ++ drops G t ds) w).
Proof.
  intros Hz. revert w ds. induction xs as [|x xs IH]; intros w ds E; cbn [drop_seq] in E.
  - injection E as <- <-. cbn [map drop_chunks]. now rewrite drops_nil, app_nil_r, set_tr_same.
  - cbn [map drop_chunks call_drop]. rewrite from_bytes_enc by now apply is_value_sized.
    unfold drop_val. destruct (t_copy (G t)) eqn:Hc; cbn [negb andb] in E.
    + replace (drops G t [x]) with (@nil event) in E by (unfold drops; now rewrite Hc).
      rewrite app_nil_r in E. destruct (drop_seq G t (w_trace w) xs) as [ds' ok'] eqn:E'.
      injection E as <- <-. rewrite (IH w ds' E'). unfold drops. now rewrite Hc.
    + destruct (t_drop_panics (G t) (w_trace w) x).
      { injection E as <- <-. unfold drops. now rewrite Hc. }
      destruct (drop_seq G t (w_trace w ++ drops G t [x]) xs) as [ds' ok'] eqn:E'.
      injection E as <- <-.
      replace (emit (EvDrop t x) w) with (set_tr (w_trace w ++ drops G t [x]) w)
        by (unfold drops; rewrite Hc; reflexivity).
      rewrite (IH _ ds') by now rewrite set_tr_trace.
      now rewrite set_tr_trace, set_tr_set, <- app_assoc, <- drops_cons.
Qed.

Lemma drop_seq_prefix G t tr xs ds ok :
  drop_seq G t tr xs = (ds, ok) -> exists rest, xs = ds ++ rest /\ (ok = true -> rest = []).
Proof.
  revert tr ds. induction xs as [|x xs IH]; intros tr ds E; cbn [drop_seq] in E.
  - injection E as <- <-. now exists [].
  - destruct (negb _ && _). { injection E as <- <-. exists xs. split; [reflexivity|discriminate]. }
    destruct (drop_seq G t _ xs) as [ds' ok'] eqn:E'. injection E as <- <-.
    destruct (IH _ _ E') as (rest & -> & H). exists rest. split; [reflexivity|exact H].
Qed.

(** Everything is as in [G], but destructors return. *)
Definition calm (G : tenv) : tenv := fun t =>
  TInfo (t_size (G t)) (t_align (G t)) (t_copy (G t)) (t_clone (G t)) (fun _ _ => false)
        (t_eq (G t)) (t_hash (G t)) (t_fmt (G t)).

Lemma calm_ok G : wf_tenv G -> clones_ok G -> types_ok (calm G).
Proof.
  intros [H1 H2 H3 H4] HC. constructor.
  - constructor; try assumption. intros t. destruct (H1 t). now constructor.
  - intros t h v c. apply HC.
  - intros t h v. reflexivity.
Qed.

Lemma calm_vals G t n bs : read_vals (calm G) t n bs = read_vals G t n bs.
Proof.
  revert bs. induction n as [|n IH]; intros bs; cbn [read_vals]; [reflexivity|].
  rewrite IH. reflexivity.
Qed.

Lemma calm_contents (V : Type) G (b : vecdyn V) t xs : contents G b t xs -> contents (calm G) b t xs.
Proof.
  intros [Hz Hc]. split; [exact Hz|]. unfold vd_as_slice_as, vc_as_slice_as in *. now rewrite calm_vals.
Qed.

Lemma calm_encs G t xs : encs (calm G) t xs = encs G t xs.
Proof. induction xs as [|x xs IH]; [reflexivity|]. unfold encs in *. cbn [flat_map concat map] in *. now rewrite IH. Qed.
