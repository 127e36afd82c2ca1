(** * MacroNumFacts: the calls of [call_numeric_buffer_fn!] (C88, C89). *)

From Verif Require Import Base VecCopy Numeric MacroNum MacroNumSpec.
From Coq Require Import String List Bool.
Import ListNotations.
Local Open Scope string_scope.
Local Open Scope list_scope.

Lemma listed_cons p l : listed (p :: l) = p :: flat_map (fun x => [Pu ","; x]) l.
Proof.
  revert p. induction l as [|q l IH]; intros p; [reflexivity|].
  change (listed (p :: q :: l)) with (p :: Pu "," :: listed (q :: l)). rewrite IH. reflexivity.
Qed.
Lemma commas_listed l : commas l = listed l.
Proof. induction l as [|p [|q l] IH]; [reflexivity|reflexivity|]. cbn in *. now rewrite IH. Qed.

(** Pieces that are items of a kind. *)
Definition items (k : kind) (ps : list piece) (fs : list frag) : Prop :=
  Forall2 (fun p f => as_kind k p = Some f) ps fs.
(** A rest of a call that does not go on with a repetition. *)
Definition stops (k : kind) (r : list piece) : Prop :=
  match r with
  | Pu s :: _ => s <> ","
  | _ => False
  end.
Lemma stops_kind k s : as_kind k (Pu s) = None. Proof. destruct k; reflexivity. Qed.

Lemma take_more_all k ps : forall fs r, items k ps fs -> stops k r ->
  take_more k (flat_map (fun x => [Pu ","; x]) ps ++ r) = Some (fs, r).
Proof.
  induction ps as [|p ps IH]; intros fs r Hi Hr; inversion Hi; subst; clear Hi.
  - cbn [flat_map app]. destruct r as [|[s|s|e|n] r]; try contradiction. cbn in Hr. cbn [take_more].
    destruct s as [|[[] [] [] [] [] [] [] []] s]; try reflexivity. destruct s; [congruence|reflexivity].
  - cbn [flat_map app take_more]. match goal with H : as_kind k p = _ |- _ => rewrite H end.
    now rewrite (IH _ _ H3 Hr).
Qed.
Lemma take_many_all k ps fs r : items k ps fs -> stops k r -> take_many k (listed ps ++ r) = Some (fs, r).
Proof.
  intros Hi Hr. destruct ps as [|p ps].
  - inversion Hi; subst. cbn. destruct r as [|[s|s|e|n] r]; try contradiction. cbn [take_many].
    now rewrite (stops_kind k s).
  - inversion Hi; subst. rewrite listed_cons. cbn [app take_many].
    match goal with H : as_kind k p = _ |- _ => rewrite H end. now rewrite (take_more_all k ps _ _ H3 Hr).
Qed.

Lemma idents l : Forall legal l -> items KIdent (map Id l) (map FIdent l).
Proof.
  induction 1 as [|s l Hs _ IH]; constructor; [|exact IH]. cbn.
  now destruct (String.eqb_spec s "_").
Qed.
Lemma exprs l : Forall legal_expr l -> items KExpr (map written l) (map FExpr l).
Proof.
  induction 1 as [|e l Hs _ IH]; constructor; [|exact IH]. destruct e as [s|n]; cbn in *; [|reflexivity].
  now destruct (String.eqb_spec s "_").
Qed.
Lemma exprs_again l : items KExpr (map Ex l) (map FExpr l).
Proof. induction l; constructor; auto. Qed.

Lemma m_lit l ps ts b : piece_eqb l l = true -> match_arm (Lit l :: ps) (l :: ts) b = match_arm ps ts b.
Proof. intros H. cbn [match_arm]. now rewrite H. Qed.
Lemma m_one k x t f ps ts b : as_kind k t = Some f ->
  match_arm (One k x :: ps) (t :: ts) b = match_arm ps ts (b ++ [(x, [f])]).
Proof. intros H. cbn [match_arm]. now rewrite H. Qed.
Lemma m_many k x l fs ps r b : items k l fs -> stops k r ->
  match_arm (Many k x :: ps) (listed l ++ r) b = match_arm ps r (b ++ [(x, fs)]).
Proof. intros H Hr. cbn [match_arm]. now rewrite (take_many_all k l fs r H Hr). Qed.

Ltac go := repeat first
  [rewrite m_lit by reflexivity
  |erewrite m_one by (first [eassumption|reflexivity])
  |erewrite m_many by (first [eassumption|cbn; discriminate])].

Lemma legal_kind s : legal s -> as_kind KIdent (Id s) = Some (FIdent s).
Proof. intros H. cbn. now destruct (String.eqb_spec s "_"). Qed.

(** The five arms on the calls they are for. *)
Definition tail (aps : list piece) (err : N) : list piece := listed aps ++ [Pu ")"; Id "or"; Bl err].
Definition fn_head (f : string) : list piece := [Id f; Pu "::"; Pu "<"; Id "_"].
Definition m_head (d f : string) : list piece := [Id d; Pu "."; Id f; Pu "::"; Pu "<"; Id "_"].
Definition more (tps : list piece) : list piece := Pu "," :: listed tps ++ [Pu ">"; Pu "("].
Definition none : list piece := [Pu ">"; Pu "("].

Lemma fn_arm_yes f tps ps dp d aps xs err : legal f -> items KIdent tps ps -> as_kind KExpr dp = Some d ->
  items KExpr aps xs ->
  match_arm (a_lhs fn_arm) (fn_head f ++ more tps ++ dp :: Pu "," :: tail aps err) [] =
  Some [("fn", [FIdent f]); ("params", ps); ("data", [d]); ("args", xs); ("err", [FBlock err])].
Proof.
  intros Hf Hp Hd Ha. apply legal_kind in Hf. unfold fn_arm, a_lhs, fn_head, more, tail. cbn [app].
  rewrite <- !app_assoc. cbn [app]. go. reflexivity.
Qed.
Lemma fn_arm_one_arg f tps ps dp d err : legal f -> items KIdent tps ps -> as_kind KExpr dp = Some d ->
  match_arm (a_lhs fn_arm) (fn_head f ++ more tps ++ dp :: tail [] err) [] = None /\
  match_arm (a_lhs fn_one_arg_arm) (fn_head f ++ more tps ++ dp :: tail [] err) [] =
  Some [("fn", [FIdent f]); ("params", ps); ("data", [d]); ("err", [FBlock err])].
Proof.
  intros Hf Hp Hd. apply legal_kind in Hf.
  unfold fn_arm, fn_one_arg_arm, a_lhs, fn_head, more, tail. cbn [app listed].
  rewrite <- !app_assoc. cbn [app]. split; go; reflexivity.
Qed.
Lemma fn_arm_no_data f tps ps err : legal f -> items KIdent tps ps ->
  match_arm (a_lhs fn_arm) (fn_head f ++ more tps ++ tail [] err) [] = None /\
  match_arm (a_lhs fn_one_arg_arm) (fn_head f ++ more tps ++ tail [] err) [] = None.
Proof.
  intros Hf Hp. apply legal_kind in Hf.
  unfold fn_arm, fn_one_arg_arm, a_lhs, fn_head, more, tail. cbn [app listed].
  rewrite <- !app_assoc. cbn [app]. split; go; reflexivity.
Qed.
Lemma fn_arm_no_comma f rest : legal f ->
  match_arm (a_lhs fn_arm) (fn_head f ++ none ++ rest) [] = None.
Proof. intros Hf. apply legal_kind in Hf. unfold fn_arm, a_lhs, fn_head, none. cbn [app]. go. reflexivity. Qed.
Lemma fn_one_param_yes f aps xs err : legal f -> items KExpr aps xs ->
  match_arm (a_lhs fn_one_param_arm) (fn_head f ++ none ++ tail aps err) [] =
  Some [("fn", [FIdent f]); ("args", xs); ("err", [FBlock err])].
Proof.
  intros Hf Ha. apply legal_kind in Hf. unfold fn_one_param_arm, a_lhs, fn_head, none, tail. cbn [app]. go. reflexivity.
Qed.
Lemma fn_one_param_no f tps rest : legal f ->
  match_arm (a_lhs fn_one_param_arm) (fn_head f ++ more tps ++ rest) [] = None.
Proof. intros Hf. apply legal_kind in Hf. unfold fn_one_param_arm, a_lhs, fn_head, more. cbn [app]. go. reflexivity. Qed.

Lemma method_no_fn d f rest : legal d ->
  match_arm (a_lhs fn_arm) (m_head d f ++ rest) [] = None /\
  match_arm (a_lhs fn_one_param_arm) (m_head d f ++ rest) [] = None /\
  match_arm (a_lhs fn_one_arg_arm) (m_head d f ++ rest) [] = None.
Proof.
  intros Hd. apply legal_kind in Hd. unfold fn_arm, fn_one_param_arm, fn_one_arg_arm, a_lhs, m_head. cbn [app].
  repeat split; go; reflexivity.
Qed.
Lemma fn_no_method f rest : legal f ->
  match_arm (a_lhs method_arm) (fn_head f ++ rest) [] = None /\
  match_arm (a_lhs method_one_param_arm) (fn_head f ++ rest) [] = None.
Proof.
  intros Hd. apply legal_kind in Hd. unfold method_arm, method_one_param_arm, a_lhs, fn_head. cbn [app].
  repeat split; go; reflexivity.
Qed.
Lemma method_arm_yes d f tps ps aps xs err : legal d -> legal f -> items KIdent tps ps -> items KExpr aps xs ->
  match_arm (a_lhs method_arm) (m_head d f ++ more tps ++ tail aps err) [] =
  Some [("data", [FIdent d]); ("fn", [FIdent f]); ("params", ps); ("args", xs); ("err", [FBlock err])].
Proof.
  intros Hd Hf Hp Ha. apply legal_kind in Hf, Hd. unfold method_arm, a_lhs, m_head, more, tail. cbn [app].
  rewrite <- !app_assoc. cbn [app]. go. reflexivity.
Qed.
Lemma method_one_param_yes d f aps xs err : legal d -> legal f -> items KExpr aps xs ->
  match_arm (a_lhs method_arm) (m_head d f ++ none ++ tail aps err) [] = None /\
  match_arm (a_lhs method_one_param_arm) (m_head d f ++ none ++ tail aps err) [] =
  Some [("data", [FIdent d]); ("fn", [FIdent f]); ("args", xs); ("err", [FBlock err])].
Proof.
  intros Hd Hf Ha. apply legal_kind in Hf, Hd.
  unfold method_arm, method_one_param_arm, a_lhs, m_head, none, tail. cbn [app]. split; go; reflexivity.
Qed.

(** The code of a call. *)
Definition the_rows : list (numty * numty) :=
  [(U8, U8); (I8, I8); (U16, U16); (I16, I16); (U32, U32); (I32, I32); (U64, U64); (I64, I64); (F32, F32); (F64, F64)].
Lemma all_idents l : all_of ident_of (map FIdent l) = Some l.
Proof. induction l as [|s l IH]; [reflexivity|]. cbn. now rewrite IH. Qed.
Lemma all_exprs l : all_of expr_of (map FExpr l) = Some l.
Proof. induction l as [|s l IH]; [reflexivity|]. cbn. now rewrite IH. Qed.

Lemma expand_fn im n f tps ps dp d aps xs err : legal f -> items KIdent tps (map FIdent ps) ->
  as_kind KExpr dp = Some (FExpr d) -> items KExpr aps (map FExpr xs) ->
  expand im (S n) numeric_arms (fn_head f ++ more tps ++ dp :: Pu "," :: tail aps err) =
  Expands (Code d the_rows false f ps xs err).
Proof.
  intros Hf Hp Hd Ha. cbn [expand]. unfold numeric_arms. cbn [choose].
  rewrite (fn_arm_yes f tps _ dp _ aps _ err Hf Hp Hd Ha). cbn [a_rhs fn_arm].
  unfold fill. cbn [lookup String.eqb Ascii.eqb Bool.eqb expr_of]. now rewrite all_idents, all_exprs.
Qed.
Lemma expand_fn_one n f tps ps dp d err : legal f -> items KIdent tps (map FIdent ps) -> Forall legal ps ->
  as_kind KExpr dp = Some (FExpr d) ->
  expand true (S (S n)) numeric_arms (fn_head f ++ more tps ++ dp :: tail [] err) =
  Expands (Code d the_rows false f ps [] err).
Proof.
  intros Hf Hp Hl Hd. cbn [expand]. unfold numeric_arms at 1. cbn [choose].
  destruct (fn_arm_one_arg f tps _ dp _ err Hf Hp Hd) as [-> E]. rewrite (fn_one_param_no f tps _ Hf), E.
  cbn [a_rhs fn_one_arg_arm transcribe lookup String.eqb Ascii.eqb Bool.eqb forward].
  rewrite commas_listed, map_map. cbn [forward].
  pose proof (expand_fn true n f (map Id ps) ps (Ex d) d [] [] err Hf (idents ps Hl) eq_refl (Forall2_nil _)) as K.
  cbn [expand] in K. rewrite <- K. unfold fn_head, more, tail. cbn [app listed]. rewrite <- !app_assoc. reflexivity.
Qed.
Lemma expand_fn_none n f aps xs err : legal f -> items KExpr aps (map FExpr xs) ->
  expand true (S n) numeric_arms (fn_head f ++ none ++ tail aps err) =
  expand true n numeric_arms (fn_head f ++ more [] ++ tail (map Ex xs) err).
Proof.
  intros Hf Ha. cbn [expand]. unfold numeric_arms at 1. cbn [choose].
  rewrite (fn_arm_no_comma f _ Hf), (fn_one_param_yes f aps _ err Hf Ha).
  cbn [a_rhs fn_one_param_arm transcribe lookup String.eqb Ascii.eqb Bool.eqb forward].
  rewrite commas_listed, map_map. cbn [forward]. reflexivity.
Qed.
Lemma expand_fn_no_data im n f tps ps err : legal f -> items KIdent tps ps ->
  expand im (S n) numeric_arms (fn_head f ++ more tps ++ tail [] err) = NoRules.
Proof.
  intros Hf Hp. cbn [expand]. unfold numeric_arms at 1. cbn [choose].
  destruct (fn_arm_no_data f tps ps err Hf Hp) as [-> ->]. rewrite (fn_one_param_no f tps _ Hf).
  destruct (fn_no_method f (more tps ++ tail [] err) Hf) as [-> ->]. reflexivity.
Qed.
Lemma expand_method im n d f tps ps aps xs err : legal d -> legal f -> items KIdent tps (map FIdent ps) ->
  items KExpr aps (map FExpr xs) ->
  expand im (S n) numeric_arms (m_head d f ++ more tps ++ tail aps err) =
  Expands (Code (EName d) the_rows true f ps xs err).
Proof.
  intros Hd Hf Hp Ha. cbn [expand]. unfold numeric_arms at 1. cbn [choose].
  destruct (method_no_fn d f (more tps ++ tail aps err) Hd) as (-> & -> & ->).
  rewrite (method_arm_yes d f tps _ aps _ err Hd Hf Hp Ha). cbn [a_rhs method_arm].
  unfold fill. cbn [lookup String.eqb Ascii.eqb Bool.eqb expr_of]. now rewrite all_idents, all_exprs.
Qed.
Lemma expand_method_none n d f aps xs err : legal d -> legal f -> items KExpr aps (map FExpr xs) ->
  expand true (S (S n)) numeric_arms (m_head d f ++ none ++ tail aps err) =
  Expands (Code (EName d) the_rows true f [] xs err).
Proof.
  intros Hd Hf Ha. cbn [expand]. unfold numeric_arms at 1. cbn [choose].
  destruct (method_no_fn d f (none ++ tail aps err) Hd) as (-> & -> & ->).
  destruct (method_one_param_yes d f aps _ err Hd Hf Ha) as [-> ->].
  cbn [a_rhs method_one_param_arm transcribe lookup String.eqb Ascii.eqb Bool.eqb forward].
  rewrite commas_listed, map_map. cbn [forward].
  exact (expand_method true n d f [] [] (map Ex xs) xs err Hd Hf (Forall2_nil _) (exprs_again xs)).
Qed.

(** The calls as the user writes them. *)
Lemma function_shape f params args err :
  function_call f params args err =
  fn_head f ++ match params with [] => none | _ => more (map Id params) end ++ tail (map written args) err.
Proof.
  unfold function_call, type_list, arg_list, fn_head, none, more, tail.
  destruct params as [|p ps]; cbn [map listed app]; rewrite <- ?app_assoc; cbn [app]; rewrite <- ?app_assoc; reflexivity.
Qed.
Lemma method_shape d f params args err :
  method_call d f params args err =
  m_head d f ++ match params with [] => none | _ => more (map Id params) end ++ tail (map written args) err.
Proof. unfold method_call. rewrite function_shape. reflexivity. Qed.
Lemma tail_more p q aps err : tail (p :: q :: aps) err = p :: Pu "," :: tail (q :: aps) err.
Proof. reflexivity. Qed.
Lemma written_kind e : legal_expr e -> as_kind KExpr (written e) = Some (FExpr e).
Proof. destruct e; cbn; [|reflexivity]. intros H. now destruct (String.eqb_spec s "_"). Qed.

Lemma function_code f params data args err : legal f -> Forall legal params -> Forall legal_expr (data :: args) ->
  numeric_call (function_call f params (data :: args) err) = Expands (Code data the_rows false f params args err).
Proof.
  intros Hf Hp Ha. inversion Ha as [|? ? Hd Hs]; subst. unfold numeric_call. rewrite function_shape.
  change 128%nat with (S (S (S 125))). destruct params as [|p ps].
  - rewrite (expand_fn_none _ f _ (data :: args) err Hf (exprs _ Ha)).
    destruct args as [|x args].
    + exact (expand_fn_one 125 f [] [] (Ex data) data err Hf (Forall2_nil _) (Forall_nil _) eq_refl).
    + cbn [map]. rewrite tail_more.
      exact (expand_fn true 126 f [] [] (Ex data) data (map Ex (x :: args)) (x :: args) err Hf (Forall2_nil _) eq_refl
               (exprs_again _)).
  - destruct args as [|x args].
    + exact (expand_fn_one 126 f (map Id (p :: ps)) (p :: ps) (written data) data err Hf (idents _ Hp) Hp (written_kind _ Hd)).
    + cbn [map]. rewrite tail_more.
      exact (expand_fn true _ f (map Id (p :: ps)) (p :: ps) (written data) data (map written (x :: args)) (x :: args) err Hf
               (idents _ Hp) (written_kind _ Hd) (exprs _ Hs)).
Qed.
Lemma method_code d f params args err : legal d -> legal f -> Forall legal params -> Forall legal_expr args ->
  numeric_call (method_call d f params args err) = Expands (Code (EName d) the_rows true f params args err).
Proof.
  intros Hd Hf Hp Ha. unfold numeric_call. rewrite method_shape. change 128%nat with (S (S 126)). destruct params as [|p ps].
  - exact (expand_method_none 126 d f _ args err Hd Hf (exprs _ Ha)).
  - exact (expand_method true _ d f _ (p :: ps) _ args err Hd Hf (idents _ Hp) (exprs _ Ha)).
Qed.

Lemma code_does nid d m f ps xs err : (forall k k', nid k = nid k' -> k = k') ->
  does nid (Expands (Code d the_rows m f ps xs err)) d m f ps xs err.
Proof.
  intros Hi. eexists. split; [reflexivity|].
  assert (E : forall k k', N.eqb (nid k) (nid k') = true <-> k = k').
  { intros k k'. rewrite N.eqb_eq. split; [apply Hi|congruence]. }
  split.
  - intros k Hk. unfold run_code. cbn [c_rows c_data c_args c_method c_fn c_params app]. f_equal.
    assert (F : find (fun r => N.eqb (nid k) (nid (fst r))) the_rows = Some (k, k)).
    { unfold the_rows. cbn [find fst].
      repeat match goal with
      | |- context [N.eqb (nid k) (nid ?k')] =>
          let H := fresh in destruct (N.eqb (nid k) (nid k')) eqn:H; [apply E in H; now subst|]
      end.
      exfalso. cbn [ten_types In] in Hk.
      repeat (destruct Hk as [Hk|Hk]; [subst k; match goal with H : N.eqb ?a ?a = false |- _ => rewrite N.eqb_refl in H; discriminate end|]).
      exact Hk. }
    now rewrite F.
  - intros t Ht. unfold run_code. cbn [c_rows c_data c_err]. f_equal.
    assert (F : find (fun r => N.eqb t (nid (fst r))) the_rows = None).
    { unfold the_rows. cbn [find fst].
      repeat match goal with
      | |- context [N.eqb t (nid ?k')] =>
          let H := fresh in destruct (N.eqb t (nid k')) eqn:H;
            [exfalso; apply Ht; apply N.eqb_eq in H; rewrite H; apply in_map; cbn; tauto|]
      end. reflexivity. }
    now rewrite F.
Qed.

(** ** C88 *)

Lemma c88_function_fact :
  forall nid f params data args err,
  (forall k k', nid k = nid k' -> k = k') ->
  legal f -> Forall legal params -> Forall legal_expr (data :: args) ->
  does nid (numeric_call (function_call f params (data :: args) err)) data false f params args err.
Proof.
  intros nid f params data args err Hi Hf Hp Ha. rewrite (function_code f params data args err Hf Hp Ha).
  now apply code_does.
Qed.

Lemma c88_method_fact :
  forall nid data f params args err,
  (forall k k', nid k = nid k' -> k = k') ->
  legal data -> legal f -> Forall legal params -> Forall legal_expr args ->
  does nid (numeric_call (method_call data f params args err)) (EName data) true f params args err.
Proof.
  intros nid data f params args err Hi Hd Hf Hp Ha. rewrite (method_code data f params args err Hd Hf Hp Ha).
  now apply code_does.
Qed.

(** A function without a buffer is refused. *)
Lemma c88_no_buffer_fact :
  forall f params err, legal f -> Forall legal params ->
  numeric_call (function_call f params [] err) = NoRules.
Proof.
  intros f params err Hf Hp. unfold numeric_call. rewrite function_shape. change 128%nat with (S (S 126)).
  destruct params as [|p ps].
  - rewrite (expand_fn_none _ f _ [] err Hf (Forall2_nil _)).
    exact (expand_fn_no_data true _ f [] [] err Hf (Forall2_nil _)).
  - exact (expand_fn_no_data true _ f _ _ err Hf (idents _ Hp)).
Qed.

(** ** C89 *)

(** Without an import, only the calls with two or more type parameters work, and of these only those
    of methods or with two or more arguments. *)
Lemma c89_numeric_refuted_fact :
  forall f params data args err,
  legal f -> Forall legal params -> Forall legal_expr (data :: args) -> params = [] \/ args = [] ->
  numeric_by_path (function_call f params (data :: args) err) = NotInScope.
Proof.
  intros f params data args err Hf Hp Ha Hor. inversion Ha as [|? ? Hd Hs]; subst.
  unfold numeric_by_path. rewrite function_shape. change 128%nat with (S 127).
  cbn [expand]. unfold numeric_arms at 1. cbn [choose].
  destruct params as [|p ps].
  - rewrite (fn_arm_no_comma f _ Hf), (fn_one_param_yes f _ _ err Hf (exprs _ Ha)). reflexivity.
  - destruct Hor as [Hor|Hor]; [discriminate|]. subst args. cbn [map].
    change (tail [written data] err) with (written data :: tail [] err).
    destruct (fn_arm_one_arg f _ _ _ _ err Hf (idents _ Hp) (written_kind _ Hd)) as [E1 E2].
    cbn [map] in E1, E2. rewrite E1. rewrite (fn_one_param_no f (Id p :: map Id ps) _ Hf), E2. reflexivity.
Qed.
Lemma c89_numeric_method_refuted_fact :
  forall data f args err,
  legal data -> legal f -> Forall legal_expr args ->
  numeric_by_path (method_call data f [] args err) = NotInScope.
Proof.
  intros d f args err Hd Hf Ha. unfold numeric_by_path. rewrite method_shape. change 128%nat with (S 127).
  cbn [expand]. unfold numeric_arms at 1. cbn [choose].
  destruct (method_no_fn d f (none ++ tail (map written args) err) Hd) as (-> & -> & ->).
  destruct (method_one_param_yes d f _ _ err Hd Hf (exprs _ Ha)) as [-> ->]. reflexivity.
Qed.
Lemma c89_numeric_partial_fact :
  forall nid f params data args err,
  (forall k k', nid k = nid k' -> k = k') ->
  legal f -> Forall legal params -> params <> [] ->
  (Forall legal_expr (data :: args) -> args <> [] ->
   does nid (numeric_by_path (function_call f params (data :: args) err)) data false f params args err) /\
  (forall d, legal d -> Forall legal_expr args ->
   does nid (numeric_by_path (method_call d f params args err)) (EName d) true f params args err).
Proof.
  intros nid f params data args err Hi Hf Hp Hn. destruct params as [|p ps]; [congruence|]. split.
  - intros Ha Hx. destruct args as [|x args]; [congruence|]. inversion Ha as [|? ? Hd Hs]; subst.
    unfold numeric_by_path. rewrite function_shape. cbn [map]. rewrite tail_more.
    pose proof (expand_fn false 127 f (map Id (p :: ps)) (p :: ps) (written data) data (map written (x :: args)) (x :: args) err Hf
               (idents _ Hp) (written_kind _ Hd) (exprs _ Hs)) as K. cbn [map] in K. rewrite K. now apply code_does.
  - intros d Hd Ha. unfold numeric_by_path. rewrite method_shape.
    pose proof (expand_method false 127 d f _ (p :: ps) _ args err Hd Hf (idents _ Hp) (exprs _ Ha)) as K. rewrite K.
    now apply code_does.
Qed.

Lemma find_tried {A} nid t (f : numty -> A) err c :
  c_rows c = map (fun k => (k, k)) tried ->
  result_of f err (run_code nid t c) = Some (try_types nid tried t f err).
Proof.
  intros H. unfold run_code. rewrite H.
  assert (K : forall ks, result_of f err (Evaluated (c_data c) ::
     match find (fun r => N.eqb t (nid (fst r))) (map (fun k => (k, k)) ks) with
  | Some (_, k) => map Evaluated (c_args c) ++ [Called (c_method c) (c_fn c) k (c_params c)]
  | None => [FellBack (c_err c)]
  end) = Some (try_types nid ks t f err)); [|apply K].
  induction ks as [|k ks IH]; [reflexivity|]. cbn [map find fst try_types].
  destruct (N.eqb t (nid k)); [|exact IH]. unfold result_of.
  rewrite app_comm_cons, last_last. reflexivity.
Qed.
Lemma c88_library_fact :
  forall (V A : Type) nid (f : numty -> A) (err : A) (self : veccopy V) call, In call library_calls ->
    exists c, numeric_call call = Expands c /\
      result_of f err (run_code nid (vc_element_type_id self) c) = Some (call_numeric_buffer_fn nid f self err).
Proof.
  intros V A nid f err self call [<-|[<-|[]]]; (eexists; split; [reflexivity|]); apply find_tried; reflexivity.
Qed.
