(** Property theorems proved in [Emitted.v]; generated by tools/genprops.py. *)
From Coq Require Import NArith String Ascii List Bool Lia PeanoNat.
Import ListNotations.
From Verif Require Import Base IndexMap Decimal Oxide SipHash SourceCov Hints Ast Visitor VisitorEx Erase Counting CountingRoot
  Json CovJson DataObject Template Runtime Options Plugin Produced DebugComment.
Open Scope string_scope.
From Verif Require Import Emitted.

Theorem C56_options_reach_output : forall x m n t p out p' items,
  program_items t = Some items -> forallb (good false) items = true -> clean t = true ->
  process x m n t p = Ok (out, p') ->
  excluded x (options_of m) (file_name m) = false ->
  should_ignore_file (m_word m) (m_comments m) (nspan t) = false ->
  let o := options_of m in
  exists sc name, let fc := sc_fc sc in
    instrument (mkEnv (m_comments m) (m_word m) (m_lookup m) (o_report_logic o) (o_ignore_methods o))
      n (file_name m) (o_source_map o) t = Ok (out_program out, sc) /\
    p_fn p' = Some name /\ p_temp p' <> None /\
    fc_path fc = file_name m /\ fc_input_source_map fc = o_source_map o /\
    (match fc_b_t fc with Some _ => true | None => false end) = o_report_logic o /\
    functions o (file_name m) out = [mkFnDecl name
      [SVar "path" (XStr (file_name m)); SVar "hash" (XStr (dec (hash_str (print (fc_json fc)))));
       SVar "global" XGlobal; SVar "gcv" (XStr (o_variable o));
       SVar "coverageData" (XData (snd (coverage_data_object fc)));
       SVar "coverage" (XOr (XIndex (XVar "global") (XVar "gcv")) (XSet (XVar "global") (XVar "gcv") XEmpty));
       SIf (XOr (XNot (XIndex (XVar "coverage") (XVar "path")))
                (XNeq (XProp (XIndex (XVar "coverage") (XVar "path")) "$hash") (XVar "hash")))
           (XSet (XVar "coverage") (XVar "path") (XVar "coverageData"));
       SVar "actualCoverage" (XIndex (XVar "coverage") (XVar "path"));
       SReplace "actualCoverage"; SReturn "actualCoverage"]
      (if o_debug_comment o then Some ("__coverage_data_json_comment__::" ++ print (fc_json fc)) else None)].
Proof. exact (@options_reach_output). Qed.
Print Assumptions C56_options_reach_output.

Theorem C56_no_function_otherwise : forall x m n t p out p', clean t = true -> process x m n t p = Ok (out, p') ->
  excluded x (options_of m) (file_name m) = true \/ should_ignore_file (m_word m) (m_comments m) (nspan t) = true ->
  functions (options_of m) (file_name m) out = [] /\ out_program out = t.
Proof. exact (@no_function_otherwise). Qed.
Print Assumptions C56_no_function_otherwise.

Theorem C56_unread_options : forall x o1 o2 file m n t p out1 p1 out2 p2, same_instrumentation o1 o2 ->
  process_with x o1 file m n t p = Ok (out1, p1) -> process_with x o2 file m n t p = Ok (out2, p2) ->
  out1 = out2 /\ p_fn p1 = p_fn p2 /\ p_temp p1 = p_temp p2 /\
  (o_variable o1 = o_variable o2 -> o_debug_comment o1 = o_debug_comment o2 -> functions o1 file out1 = functions o2 file out2) /\
  (lo_level (o_log o1) = lo_level (o_log o2) -> p1 = p2).
Proof. exact (@unread_options). Qed.
Print Assumptions C56_unread_options.

Theorem C56_unread_options_same : forall x o1 o2 file m n t p, same_instrumentation o1 o2 ->
  lo_level (o_log o1) = lo_level (o_log o2) -> process_with x o1 file m n t p = process_with x o2 file m n t p.
Proof. exact (@unread_options_same). Qed.
Print Assumptions C56_unread_options_same.

Theorem C56_published_as_configured : forall x m n t p out p' items,
  program_items t = Some items -> forallb (good false) items = true -> clean t = true -> Forall DataObject.plain (idents t) ->
  process x m n t p = Ok (out, p') ->
  excluded x (options_of m) (file_name m) = false ->
  should_ignore_file (m_word m) (m_comments m) (nspan t) = false ->
  exists f fc name comment, functions (options_of m) (file_name m) out = [mkFnDecl name (template f) comment] /\
    templates (out_program out) = [fc] /\ output_of f fc /\
    forall hist i, valid hist -> NoDup (map file_key (loaded hist)) -> Forall (fun f => exists fc, output_of f fc) (loaded hist) ->
      nth_error (loaded hist) i = Some f -> touched i hist = true ->
      exists st a j, Runtime.run hist rt0 = Some st /\
        published (rheap st) (o_variable (options_of m)) (file_name m) = Some a /\ data_at (rheap st) a = Some j /\
        forall c, Runtime.count c j = option_map (fun k => (k + hits i c hist)%N) (recorded fc c).
Proof. exact (@published_as_configured). Qed.
Print Assumptions C56_published_as_configured.

Theorem C56_emitted_ex :
  let m := mkMeta (Some "a.js") (Some "{""coverageVariable"": ""__cov__"", ""debugInitialCoverageComment"": true, ""compact"": true}")
             no_comments (fun n => (n, 0%N)) (fun _ => false) in
  exists out p, process no_ext m 10 empty_module (mkProc (Some "cov_1") (Some "cov_1_temp") false) = Ok (out, p) /\
    map fd_name (functions (options_of m) (file_name m) out) = ["cov_1"] /\
    map (fun f => nth_error (fd_body f) 0) (functions (options_of m) (file_name m) out) = [Some (SVar "path" (XStr "a.js"))] /\
    map (fun f => nth_error (fd_body f) 3) (functions (options_of m) (file_name m) out) = [Some (SVar "gcv" (XStr "__cov__"))] /\
    map fd_comment (functions (options_of m) (file_name m) out) =
      [Some "__coverage_data_json_comment__::{""all"":false,""path"":""a.js"",""statementMap"":{},""fnMap"":{},""branchMap"":{},""s"":{},""f"":{},""b"":{}}"].
Proof. exact (@emitted_ex). Qed.
Print Assumptions C56_emitted_ex.

