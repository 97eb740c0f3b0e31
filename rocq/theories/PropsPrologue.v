(** Property theorems proved in [Prologue.v]; generated by tools/genprops.py. *)
From Coq Require Import NArith String List Bool Lia PeanoNat.
Import ListNotations.
From Verif Require Import Base IndexMap Oxide SourceCov Hints Ast Visitor VisitorRel VisitorEx.
Open Scope N_scope.
From Verif Require Import Prologue.

Theorem C40_prologue_displaced_refuted : exists ds f,
  length (prologue ds) = 2%nat /\
  prologue (list_of (instrument plain_env 20 "f.js" None (module_ 1 50 ds))) = firstn 1 ds /\
  prologue (list_of (instrument plain_env 20 "f.js" None (script_ 1 50 ds))) = [] /\
  length (prologue (fn_stmts f)) = 1%nat /\
  exists f', last (list_of (instrument plain_env 20 "f.js" None (script_ 1 50 [f]))) (mk KNone []) = f' /\
    nkind f' = KStmt /\ length (fn_stmts f') = 2%nat /\ prologue (fn_stmts f') = [].
Proof. exact (@prologue_displaced_refuted). Qed.
Print Assumptions C40_prologue_displaced_refuted.

Theorem C40_module_prologue_layout : forall e n sp d ds items s t' s',
  visit e (S n) VCov (Node KModuleItems sp (d :: ds ++ items)) s = Ok (t', s') ->
  Forall string_stmt (d :: ds) ->
  exists record rest, t' = Node KModuleItems sp
    (d :: mk KStmt [mk (KTemplateFn record) []] :: mk KStmt [mk KTemplateCall []] :: ds ++ rest).
Proof. exact (@module_prologue_layout). Qed.
Print Assumptions C40_module_prologue_layout.

Theorem C40_module_single_directive_partial : forall e n sp d items s t' s',
  visit e (S n) VCov (Node KModuleItems sp (d :: items)) s = Ok (t', s') ->
  string_stmt d -> prologue (nkids t') = [d].
Proof. exact (@module_single_directive_partial). Qed.
Print Assumptions C40_module_single_directive_partial.

Theorem C40_script_layout : forall e n sp ssp body s t' s',
  visit e (S n) VCov (Node KScript sp [Node KStmts ssp body]) s = Ok (t', s') ->
  exists record rest, t' = Node KScript sp [Node KStmts ssp
    (mk KStmt [mk (KTemplateFn record) []] :: mk KStmt [mk KTemplateCall []] :: rest)].
Proof. exact (@script_layout). Qed.
Print Assumptions C40_script_layout.

Theorem C40_function_layout : forall e ident sp params decorators bi bsp ssp ss types s fn' s',
  create_fn_instrumentation e ident
    (Node KFunction sp [params; decorators; Node (KBlock bi) bsp [Node KStmts ssp ss]; types]) s = Ok (fn', s') ->
  fn' = Node KFunction sp [params; decorators;
          Node (KBlock bi) bsp [Node KStmts ssp (counter_stmt (CF (sc_f (cov s))) :: ss)]; types].
Proof. exact (@function_layout). Qed.
Print Assumptions C40_function_layout.

Theorem C42_declarator_keeps_name : forall e n v sp name x s t' s', is_instr v = true ->
  visit e (S n) v (Node KVarDeclarator sp [name; x]) s = Ok (t', s') -> takes_name x ->
  exists name' x', t' = Node KVarDeclarator sp [name'; x'] /\ takes_name x' /\
    match nkids x, nkids x' with [y], [y'] => nkind y' = nkind y | _, _ => False end.
Proof. exact (@declarator_keeps_name). Qed.
Print Assumptions C42_declarator_keeps_name.

Theorem C42_declarator_keeps_name_ex :
  takes_name (arrow_ 34 44) /\
  match second (visit plain_env 20 VCov (declarator 30 45 "f" (arrow_ 34 44)) (init_state plain_env "f.js" None)) with
  | Some x' => nkind x' = KExpr /\ map nkind (nkids x') = [KArrow]
  | None => False end.
Proof. exact (@declarator_keeps_name_ex). Qed.
Print Assumptions C42_declarator_keeps_name_ex.

Theorem C42_field_and_default_lose_name_refuted : exists field default x,
  nth_error (nkids field) 1 = Some x /\ nth_error (nkids default) 1 = Some x /\ takes_name x /\
  (forall t, In t [field; default] -> exists x',
     second (visit plain_env 20 VCov t (init_state plain_env "f.js" None)) = Some x' /\ ~ takes_name x').
Proof. exact (@field_and_default_lose_name_refuted). Qed.
Print Assumptions C42_field_and_default_lose_name_refuted.

