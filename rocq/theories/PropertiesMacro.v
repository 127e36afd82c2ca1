(** * PropertiesMacro: which calls of the conversion macros expand.

    Every theorem is closed by a lemma proved in another file.  The words used in the statements are
    defined in MacroSpec.v ([from_call], [into_call], [legal], [owned], [is_path]); [from_dyn_call] and
    [into_dyn_call] of MacroRules.v expand a call. *)

From Verif Require Import MacroRules MacroSpec MacroFacts.
From Coq Require Import List String Bool.
Import ListNotations.
Local Open Scope string_scope.

(** ** C74 The conversion macros expand for every container and path *)

(** [from_dyn!] for the containers that own their elements. *)
Theorem c74_from_owned :
  forall c tr vt, owned c = true -> legal tr -> legal vt ->
  exists v, from_dyn_call (from_call c tr vt) = Expands FromOwned v /\
            lookup "vec" v = Some (FIdent (name_of c)) /\
            is_path (lookup "trait" v) tr /\ is_path (lookup "vtable" v) vt.
Proof. exact c74_from_owned_fact. Qed.
Print Assumptions c74_from_owned.
Example c74_from_owned_ex :
  owned CVecDyn = true /\ legal (UPath "drawing" ["Shape"; "VTable"]) /\
  from_dyn_call (from_call CVecDyn (UPath "Shape" []) (UPath "drawing" ["ShapeVTable"])) =
  Expands FromOwned [("vec", FIdent "VecDyn"); ("trait", FPath ["Shape"]); ("vtable", FPath ["drawing"; "ShapeVTable"])].
Proof.
  split; [reflexivity|split; [|reflexivity]].
  intros s [<-|[<-|[<-|[]]]]; reflexivity.
Qed.

(** [into_dyn!] for every container if the trait is one name, and for [Slice] with every path. *)
Theorem c74_into :
  forall c tr, legal tr -> c = CSlice \/ others tr = [] ->
  exists v, into_dyn_call (into_call c tr) = Expands (if owned c then IntoOwned else IntoSlice) v /\
            lookup (if owned c then "vec" else "slice") v = Some (FIdent (name_of c)) /\
            is_path (lookup "trait" v) tr.
Proof. exact c74_into_fact. Qed.
Print Assumptions c74_into.
Example c74_into_ex :
  legal (UPath "Shape" []) /\
  into_dyn_call (into_call CVecDyn (UPath "Shape" [])) = Expands IntoOwned [("vec", FIdent "VecDyn"); ("trait", FIdent "Shape")].
Proof. split; [intros s [<-|[]]; reflexivity|reflexivity]. Qed.

(** No call of [from_dyn!] for a slice expands: the public arms call an arm that does not exist. *)
Theorem c74_from_slice_refuted :
  forall c tr vt, owned c = false -> legal tr -> legal vt -> from_dyn_call (from_call c tr vt) = NoRules.
Proof. exact c74_from_slice_refuted_fact. Qed.
Print Assumptions c74_from_slice_refuted.
Example c74_from_slice_refuted_ex : owned CSlice = false /\ legal (UPath "Shape" []).
Proof. split; [reflexivity|intros s [<-|[]]; reflexivity]. Qed.

(** [into_dyn!] refuses a path of two or more names for every container but [Slice]. *)
Theorem c74_into_path_refuted :
  forall c tr, legal tr -> c <> CSlice -> others tr <> [] -> into_dyn_call (into_call c tr) = NoRules.
Proof. exact c74_into_path_refuted_fact. Qed.
Print Assumptions c74_into_path_refuted.
Example c74_into_path_refuted_ex :
  legal (UPath "drawing" ["Shape"]) /\ CVecDyn <> CSlice /\ others (UPath "drawing" ["Shape"]) <> [].
Proof. split; [intros s [<-|[<-|[]]]; reflexivity|split; discriminate]. Qed.

(** ** C89 Macros called by path *)

(** [dync::from_dyn![..]] and [dync::into_dyn![..]] expand only where the macro has been imported: the
    arms call the macro again by its bare name. *)
Theorem c89_from_dyn_refuted :
  forall c tr vt, legal tr -> legal vt -> from_dyn_by_path (from_call c tr vt) = NotInScope.
Proof. exact c89_from_dyn_refuted_fact. Qed.
Print Assumptions c89_from_dyn_refuted.
Example c89_from_dyn_refuted_ex :
  legal (UPath "Shape" []) /\ legal (UPath "ShapeVTable" []) /\
  (exists v, from_dyn_call (from_call CVecDyn (UPath "Shape" []) (UPath "ShapeVTable" [])) = Expands FromOwned v).
Proof. split; [intros s [<-|[]]; reflexivity|split; [intros s [<-|[]]; reflexivity|eexists; reflexivity]]. Qed.
Theorem c89_into_dyn_refuted :
  forall c tr, legal tr -> forall b v, into_dyn_by_path (into_call c tr) <> Expands b v.
Proof. exact c89_into_dyn_refuted_fact. Qed.
Print Assumptions c89_into_dyn_refuted.
Example c89_into_dyn_refuted_ex :
  legal (UPath "Shape" []) /\ into_dyn_by_path (into_call CVecDyn (UPath "Shape" [])) = NotInScope /\
  (exists v, into_dyn_call (into_call CVecDyn (UPath "Shape" [])) = Expands IntoOwned v).
Proof. split; [intros s [<-|[]]; reflexivity|split; [reflexivity|eexists; reflexivity]]. Qed.
