(** * LoudSpec: which destructors panic when all of them are run (C30). *)

From Verif Require Import DynReach.
Import ListNotations.
Open Scope N_scope.

(** Running all destructors of [xs] after the trace [tr], the panicking ones too: the elements
    whose destructor panics. *)
Fixpoint panicking (G : tenv) (t : tyid) (tr : list event) (xs : list payload) : list payload :=
  match xs with
  | [] => []
  | x :: xs' =>
      (if negb (t_copy (G t)) && t_drop_panics (G t) tr x then [x] else []) ++
      panicking G t (tr ++ drops G t [x]) xs'
  end.

(** Whether the destructor of [x] panics after the trace [tr]. *)
Definition drop_panics (G : tenv) (t : tyid) (tr : list event) (x : payload) : bool :=
  negb (t_copy (G t)) && t_drop_panics (G t) tr x.

(** Replacing the values [xs] one after the other by clones of [src] after the trace [tr], up to the
    first clone or destructor that panics: the values then, whether all were replaced, the trace. *)
Fixpoint loud_replace (G : tenv) (t : tyid) (src xs : list payload) (tr : list event)
  : list payload * bool * list event :=
  match src, xs with
  | x :: src', old :: xs' =>
      match t_clone (G t) tr x with
      | None => (old :: xs', false, tr)
      | Some c =>
          let tr1 := tr ++ EvClone t x c :: drops G t [old] in
          if drop_panics G t (tr ++ [EvClone t x c]) old then (c :: xs', false, tr1)
          else let '(ys, ok, tr2) := loud_replace G t src' xs' tr1 in (c :: ys, ok, tr2)
      end
  | _, _ => (xs, true, tr)
  end.

Section LoudSpec.
Context {V : Type} `{HasDrop V} `{HasClone V} `{HasPartialEq V} `{HasHash V} `{HasDebug V}
        `{VTable V} `{Sized V} (P : profile) (G : tenv).

(** Like [running_vec]: an owned value, and a vector and an owned value, of a program in which
    destructors may have panicked, but which was not aborted. *)
Definition running_val (v : value V) (w : world) : Prop :=
  exists prog k, Forall (dstep_typed G) prog /\ dyn_in_range P G prog d_init /\
    ~ In Abort (fst (drun P G prog d_init)) /\
    dget (snd (drun P G prog d_init)) k = Some (OVal v) /\
    w = d_world (snd (drun P G prog d_init)).
Definition running_vec_val (b : vecdyn V) (v : value V) (w : world) : Prop :=
  exists prog h k, Forall (dstep_typed G) prog /\ dyn_in_range P G prog d_init /\
    ~ In Abort (fst (drun P G prog d_init)) /\
    dget (snd (drun P G prog d_init)) h = Some (OVec b) /\
    dget (snd (drun P G prog d_init)) k = Some (OVal v) /\
    w = d_world (snd (drun P G prog d_init)).
End LoudSpec.
