(** * PropertiesMacroNum: the calls of the macro [call_numeric_buffer_fn!].

    Every theorem is closed by a lemma proved in another file.  The words used in the statements are
    defined in MacroNumSpec.v ([function_call], [method_call], [legal], [does]); [numeric_call] and
    [numeric_by_path] of MacroNum.v expand a call. *)

From Verif Require Import Base VecCopy Numeric MacroNum MacroNumSpec MacroNumFacts.
From Coq Require Import String List Bool.
Import ListNotations.
Local Open Scope string_scope.
Local Open Scope list_scope.

(** ** C88 The dispatch over number types *)

Definition some_ids (k : numty) : tyid :=
  match k with
  | U8 => 1 | I8 => 2 | U16 => 3 | I16 => 4 | U32 => 5 | I32 => 6 | U64 => 7 | I64 => 8 | F32 => 9 | F64 => 10
  | Usize => 11 | Isize => 12 | U128 => 13 | I128 => 14
  end.
Lemma some_ids_distinct : forall k k', some_ids k = some_ids k' -> k = k'.
Proof. intros [] []; cbn; congruence. Qed.

(** [f::<_, A, B>(data, x, y) or { .. }], with any number of type parameters and arguments. *)
Theorem c88_function :
  forall nid f params data args err,
  (forall k k', nid k = nid k' -> k = k') ->
  legal f -> Forall legal params -> Forall legal_expr (data :: args) ->
  does nid (numeric_call (function_call f params (data :: args) err)) data false f params args err.
Proof. exact c88_function_fact. Qed.
Print Assumptions c88_function.
Example c88_function_ex :
  legal "display_buf" /\ Forall legal ["T"; "V"] /\ Forall legal_expr [EOther 0; EName "f"] /\
  function_call "display_buf" [] [EOther 0; EName "f"] 9 =
    [Id "display_buf"; Pu "::"; Pu "<"; Id "_"; Pu ">"; Pu "("; Ex (EOther 0); Pu ","; Id "f"; Pu ")"; Id "or"; Bl 9] /\
  (exists c, numeric_call (function_call "display_buf" [] [EOther 0; EName "f"] 9) = Expands c /\
     run_code some_ids (some_ids I16) c = [Evaluated (EOther 0); Evaluated (EName "f"); Called false "display_buf" I16 []] /\
     run_code some_ids (some_ids Usize) c = [Evaluated (EOther 0); FellBack 9]).
Proof.
  split; [discriminate|]. split; [repeat constructor; discriminate|].
  split; [repeat constructor; discriminate|]. split; [reflexivity|].
  eexists. split; [reflexivity|]. split; reflexivity.
Qed.

(** [data.f::<_, A, B>(x, y) or { .. }]. *)
Theorem c88_method :
  forall nid data f params args err,
  (forall k k', nid k = nid k' -> k = k') ->
  legal data -> legal f -> Forall legal params -> Forall legal_expr args ->
  does nid (numeric_call (method_call data f params args err)) (EName data) true f params args err.
Proof. exact c88_method_fact. Qed.
Print Assumptions c88_method.
Example c88_method_ex :
  legal "self" /\ legal "reinterpret_display" /\ Forall legal_expr [EName "f"] /\
  method_call "self" "reinterpret_display" [] [EName "f"] 9 =
    [Id "self"; Pu "."; Id "reinterpret_display"; Pu "::"; Pu "<"; Id "_"; Pu ">"; Pu "("; Id "f"; Pu ")"; Id "or"; Bl 9].
Proof. repeat split; try discriminate. repeat constructor. discriminate. Qed.

(** A function without a buffer is refused by the compiler. *)
Theorem c88_no_buffer :
  forall f params err, legal f -> Forall legal params ->
  numeric_call (function_call f params [] err) = NoRules.
Proof. exact c88_no_buffer_fact. Qed.
Print Assumptions c88_no_buffer.
Example c88_no_buffer_ex : legal "f" /\ Forall legal ["T"].
Proof. split; [discriminate|repeat constructor; discriminate]. Qed.

(** The calls the library itself makes mean what Numeric.v says: the model of the casts and of printing
    there is what its calls expand to. *)
Theorem c88_library :
  forall (V A : Type) nid (f : numty -> A) (err : A) (self : veccopy V) call, In call library_calls ->
    exists c, numeric_call call = Expands c /\
      result_of f err (run_code nid (vc_element_type_id self) c) = Some (call_numeric_buffer_fn nid f self err).
Proof. exact c88_library_fact. Qed.
Print Assumptions c88_library.
Example c88_library_ex :
  exists c, numeric_call (nth 1 library_calls []) = Expands c /\
    run_code some_ids (some_ids F32) c = [Evaluated (EName "self"); Evaluated (EName "f"); Called true "reinterpret_display" F32 []].
Proof. eexists. split; reflexivity. Qed.

(** ** C89 Macros called by path *)

Theorem c89_numeric_refuted :
  forall f params data args err,
  legal f -> Forall legal params -> Forall legal_expr (data :: args) -> params = [] \/ args = [] ->
  numeric_by_path (function_call f params (data :: args) err) = NotInScope.
Proof. exact c89_numeric_refuted_fact. Qed.
Print Assumptions c89_numeric_refuted.
Theorem c89_numeric_method_refuted :
  forall data f args err,
  legal data -> legal f -> Forall legal_expr args ->
  numeric_by_path (method_call data f [] args err) = NotInScope.
Proof. exact c89_numeric_method_refuted_fact. Qed.
Print Assumptions c89_numeric_method_refuted.
Theorem c89_numeric_partial :
  forall nid f params data args err,
  (forall k k', nid k = nid k' -> k = k') ->
  legal f -> Forall legal params -> params <> [] ->
  (Forall legal_expr (data :: args) -> args <> [] ->
   does nid (numeric_by_path (function_call f params (data :: args) err)) data false f params args err) /\
  (forall d, legal d -> Forall legal_expr args ->
   does nid (numeric_by_path (method_call d f params args err)) (EName d) true f params args err).
Proof. exact c89_numeric_partial_fact. Qed.
Print Assumptions c89_numeric_partial.
Example c89_numeric_ex :
  legal "convert_into_vec" /\ Forall legal ["T"; "V"] /\ Forall legal_expr [EOther 0; EName "f"] /\
  numeric_by_path (function_call "display_buf" [] [EOther 0; EName "f"] 9) = NotInScope /\
  (exists c, numeric_by_path (function_call "convert_into_vec" ["T"; "V"] [EOther 0; EName "f"] 9) = Expands c).
Proof.
  split; [discriminate|]. split; [repeat constructor; discriminate|].
  split; [repeat constructor; discriminate|]. split; [reflexivity|]. eexists. reflexivity.
Qed.
