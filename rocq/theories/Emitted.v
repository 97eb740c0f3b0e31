(** C56: the options reach the output.

    The plugin's output with the coverage functions spelled out: create_coverage_fn_decl.rs:48-192, called by
    coverage_visitor.rs:85-95 with the coverage variable, the name of the function, the file name, the record and the flag of
    the debug comment. *)
From Coq Require Import NArith String Ascii List Bool Lia PeanoNat.
Import ListNotations.
From Verif Require Import Base IndexMap Decimal Oxide SipHash SourceCov Hints Ast Visitor VisitorEx Erase Counting CountingRoot
  Json CovJson DataObject Template Runtime Options Plugin Produced DebugComment.
Open Scope string_scope.

(** The inserted function: its name, its statements and the comment added to the program *)
Record fn_decl := mkFnDecl { fd_name : string; fd_body : list tstmt; fd_comment : option string }.
(** create_coverage_fn_decl.rs:48-192 *)
Definition create_coverage_fn_decl (gcv name file : string) (fc : file_coverage) (debug : bool) : fn_decl :=
  mkFnDecl name (template (emitted_for gcv file fc)) (if debug then Some (debug_comment fc) else None).
(** coverage_visitor.rs:52-112 for every coverage function of the output *)
Definition functions (o : options) (file : string) (out : output) : list fn_decl :=
  match out_names out with
  | Some (f, _) =>
      map (fun fc => create_coverage_fn_decl (o_variable o) f file fc (o_debug_comment o)) (templates (out_program out))
  | None => []
  end.

(** The one function of an instrumented file: the file name, the variable and the record in it, word by word. *)
Theorem options_reach_output : forall x m n t p out p' items,
  program_items t = Some items -> forallb (good false) items = true -> clean t = true ->
  process x m n t p = Ok (out, p') ->
  excluded x (options_of m) (file_name m) = false ->
  should_ignore_file (m_word m) (m_comments m) (nspan t) = false ->
  let o := options_of m in
  exists sc name, let fc := sc_fc sc in
    instrument (mkEnv (m_comments m) (m_word m) (m_lookup m) (o_report_logic o) (o_ignore_methods o))
      n (file_name m) (o_source_map o) t = Ok (out_program out, sc) /\
    p_fn p' = Some name /\ p_temp p' <> None /\
    fc_path fc = file_name m /\ fc_input_source_map fc = o_source_map o /\
    (match fc_b_t fc with Some _ => true | None => false end) = o_report_logic o /\
    functions o (file_name m) out = [mkFnDecl name
      [SVar "path" (XStr (file_name m)); SVar "hash" (XStr (dec (hash_str (print (fc_json fc)))));
       SVar "global" XGlobal; SVar "gcv" (XStr (o_variable o));
       SVar "coverageData" (XData (snd (coverage_data_object fc)));
       SVar "coverage" (XOr (XIndex (XVar "global") (XVar "gcv")) (XSet (XVar "global") (XVar "gcv") XEmpty));
       SIf (XOr (XNot (XIndex (XVar "coverage") (XVar "path")))
                (XNeq (XProp (XIndex (XVar "coverage") (XVar "path")) "$hash") (XVar "hash")))
           (XSet (XVar "coverage") (XVar "path") (XVar "coverageData"));
       SVar "actualCoverage" (XIndex (XVar "coverage") (XVar "path"));
       SReplace "actualCoverage"; SReturn "actualCoverage"]
      (if o_debug_comment o then Some ("__coverage_data_json_comment__::" ++ print (fc_json fc)) else None)].
Proof.
  intros x m n t p out p' items Hi Hg Hc R Hx Hf o.
  destruct (instrumented_otherwise x m n t p out p' items Hi Hg Hc R Hx Hf) as (sc & E & T). fold o in E.
  pose proof (produced_record _ _ _ _ _ _ _ _ Hi E) as P. cbv zeta in P. destruct P as (_ & P1 & P2 & P3).
  assert (Bt : (match fc_b_t (sc_fc sc) with Some _ => true | None => false end) = o_report_logic o).
  { do 9 (destruct P3 as [_ P3]). destruct (fc_b_t (sc_fc sc)); [destruct P3 as [P3 _]|]; symmetry; exact P3. }
  clear P3. rewrite process_cases, Hx in R. destruct (_ && p_log p); [discriminate|]. fold o in R. unfold env_of in E. rewrite E in R.
  assert (G : forall A (q : option A) a, exists b, get_or_init q a = Some b) by (intros A [b|] a; cbn; eauto).
  destruct (G _ (p_fn p) (fn_name (file_name m))) as (name & En). destruct (G _ (p_temp p) (fn_name (file_name m) ++ "_temp")) as (tmp & Et).
  cbn [p_fn p_temp] in R. rewrite En, Et in R. injection R as R1 R2. rewrite <- R2. cbn [p_fn p_temp].
  exists sc, name. cbv zeta. split; [exact E|]. split; [reflexivity|]. split; [discriminate|]. split; [exact P1|]. split; [exact P2|].
  split; [exact Bt|]. unfold functions. rewrite T, <- R1. cbn [out_names map]. reflexivity.
Qed.
(** A file that is excluded or carries the file hint gets none. *)
Theorem no_function_otherwise : forall x m n t p out p', clean t = true -> process x m n t p = Ok (out, p') ->
  excluded x (options_of m) (file_name m) = true \/ should_ignore_file (m_word m) (m_comments m) (nspan t) = true ->
  functions (options_of m) (file_name m) out = [] /\ out_program out = t.
Proof.
  intros x m n t p out p' Hc R [H|H].
  - rewrite (excluded_unchanged x m n t p H) in R. injection R as <- _. now split.
  - pose proof (ignored_unchanged x m n t p out p' H R) as E. split; [|exact E]. unfold functions. rewrite E.
    rewrite (clean_templates t Hc). now destruct (out_names out) as [[f g]|].
Qed.

(** Which options matter for what: [compact] for nothing, the variable and the debug flag only for the function, the level of
    the log only for the log. *)
Definition same_instrumentation (o1 o2 : options) : Prop :=
  o_report_logic o1 = o_report_logic o2 /\ o_ignore_methods o1 = o_ignore_methods o2 /\ o_source_map o1 = o_source_map o2 /\
  o_exclude o1 = o_exclude o2.
Theorem unread_options : forall x o1 o2 file m n t p out1 p1 out2 p2, same_instrumentation o1 o2 ->
  process_with x o1 file m n t p = Ok (out1, p1) -> process_with x o2 file m n t p = Ok (out2, p2) ->
  out1 = out2 /\ p_fn p1 = p_fn p2 /\ p_temp p1 = p_temp p2 /\
  (o_variable o1 = o_variable o2 -> o_debug_comment o1 = o_debug_comment o2 -> functions o1 file out1 = functions o2 file out2) /\
  (lo_level (o_log o1) = lo_level (o_log o2) -> p1 = p2).
Proof.
  intros x o1 o2 file m n t p out1 p1 out2 p2 (A & B & C & D) H1 H2.
  assert (S : forall o, excluded x o file = match o_exclude o with Some pats => match x_glob x (map (normalize_path x) pats) with Some f => f (normalize_path x file) | None => false end | None => false end) by reflexivity.
  assert (F : out1 = out2 -> o_variable o1 = o_variable o2 -> o_debug_comment o1 = o_debug_comment o2 -> functions o1 file out1 = functions o2 file out2).
  { intros -> V W. unfold functions. now rewrite V, W. }
  unfold process_with in H1, H2. rewrite S in H1, H2. rewrite D in H1.
  destruct (match o_exclude o2 with Some _ => _ | None => _ end).
  - injection H1 as <- <-. injection H2 as <- <-. do 3 (split; [reflexivity|]). split; [auto|reflexivity].
  - assert (K : forall o out' q, bind (initialize_log (o_log o) p) (fun q => instrument_with o file m n t q) = Ok (out', q) ->
      exists lg t' sc, q = mkProc (get_or_init (p_fn p) (fn_name file)) (get_or_init (p_temp p) (fn_name file ++ "_temp")) lg /\
        initialize_log (o_log o) p = Ok (mkProc (p_fn p) (p_temp p) lg) /\
        instrument (env_of o m) n file (o_source_map o) t = Ok (t', sc) /\
        out' = mkOutput t' (match get_or_init (p_fn p) (fn_name file), get_or_init (p_temp p) (fn_name file ++ "_temp") with Some f, Some g => Some (f, g) | _, _ => None end)).
    { intros o out' q H. destruct (initialize_log (o_log o) p) as [p3|r|] eqn:L; try discriminate. cbn [bind] in H.
      assert (E3 : p3 = mkProc (p_fn p) (p_temp p) (p_log p3)).
      { unfold initialize_log in L. destruct (match lo_level (o_log o) with Some s => log_level s | None => false end).
        - destruct (p_log p); [discriminate|]. injection L as <-. reflexivity.
        - injection L as <-. now destruct p. }
      unfold instrument_with, create_coverage_fn_ident in H. rewrite E3 in H. cbn [p_fn p_temp p_log] in H.
      destruct (get_or_init (p_fn p) (fn_name file)) as [f|] eqn:Ef; [|discriminate].
      destruct (get_or_init (p_temp p) (fn_name file ++ "_temp")) as [g|] eqn:Eg; [|discriminate].
      destruct (instrument _ _ _ _ _) as [[t' sc]|r|] eqn:Ei; try discriminate. cbn [bind] in H. injection H as <- <-.
      exists (p_log p3), t', sc. split; [reflexivity|]. split; [now rewrite <- E3|]. split; reflexivity. }
    apply K in H1 as (l1 & t1 & s1 & -> & L1 & I1 & ->). apply K in H2 as (l2 & t2 & s2 & -> & L2 & I2 & ->).
    unfold env_of in I1, I2. rewrite A, B, C in I1. rewrite I1 in I2. injection I2 as <- <-.
    split; [reflexivity|]. split; [reflexivity|]. split; [reflexivity|]. split; [now apply F|].
    intros L. unfold initialize_log in L1, L2. rewrite L in L1. rewrite L1 in L2. injection L2 as <-. reflexivity.
Qed.

Theorem unread_options_same : forall x o1 o2 file m n t p, same_instrumentation o1 o2 ->
  lo_level (o_log o1) = lo_level (o_log o2) -> process_with x o1 file m n t p = process_with x o2 file m n t p.
Proof.
  intros x o1 o2 file m n t p (A & B & C & D) L. unfold process_with, excluded, initialize_log, instrument_with, env_of.
  now rewrite A, B, C, D, L.
Qed.

(** At run time the counts are published under the configured variable and the file name: in every history in which the files
    have different names. *)
Theorem published_as_configured : forall x m n t p out p' items,
  program_items t = Some items -> forallb (good false) items = true -> clean t = true -> Forall DataObject.plain (idents t) ->
  process x m n t p = Ok (out, p') ->
  excluded x (options_of m) (file_name m) = false ->
  should_ignore_file (m_word m) (m_comments m) (nspan t) = false ->
  exists f fc name comment, functions (options_of m) (file_name m) out = [mkFnDecl name (template f) comment] /\
    templates (out_program out) = [fc] /\ output_of f fc /\
    forall hist i, valid hist -> NoDup (map file_key (loaded hist)) -> Forall (fun f => exists fc, output_of f fc) (loaded hist) ->
      nth_error (loaded hist) i = Some f -> touched i hist = true ->
      exists st a j, Runtime.run hist rt0 = Some st /\
        published (rheap st) (o_variable (options_of m)) (file_name m) = Some a /\ data_at (rheap st) a = Some j /\
        forall c, Runtime.count c j = option_map (fun k => (k + hits i c hist)%N) (recorded fc c).
Proof.
  intros x m n t p out p' items Hi Hg Hc Hp R Hx Hf.
  destruct (instrumented_otherwise x m n t p out p' items Hi Hg Hc R Hx Hf) as (sc & E & T).
  destruct (options_reach_output x m n t p out p' items Hi Hg Hc R Hx Hf) as (sc' & name & E' & _ & _ & _ & _ & _ & F). cbv zeta in F.
  unfold env_of in E. rewrite E in E'. injection E' as <-.
  destruct (produced_literal _ _ _ _ _ _ _ _ Hi E Hp) as [O _]. specialize (O (o_variable (options_of m))).
  exists (emitted_for (o_variable (options_of m)) (file_name m) (sc_fc sc)), (sc_fc sc), name.
  exists (if o_debug_comment (options_of m) then Some (debug_comment (sc_fc sc)) else None).
  split; [rewrite F; reflexivity|]. split; [exact T|]. split; [exact O|].
  intros hist i Hv Hk Ho Hl Ht. destruct (counts_are_kept hist Hv Hk Ho) as (st & Rn & K).
  destruct (K i _ _ Hl O Ht) as (a & j & A & B & C). exists st, a, j. split; [exact Rn|]. split; [exact A|]. split; [exact B|]. exact C.
Qed.

(** Non-vacuity: a configuration text with another variable, and the debug comment *)
Example emitted_ex :
  let m := mkMeta (Some "a.js") (Some "{""coverageVariable"": ""__cov__"", ""debugInitialCoverageComment"": true, ""compact"": true}")
             no_comments (fun n => (n, 0%N)) (fun _ => false) in
  exists out p, process no_ext m 10 empty_module (mkProc (Some "cov_1") (Some "cov_1_temp") false) = Ok (out, p) /\
    map fd_name (functions (options_of m) (file_name m) out) = ["cov_1"] /\
    map (fun f => nth_error (fd_body f) 0) (functions (options_of m) (file_name m) out) = [Some (SVar "path" (XStr "a.js"))] /\
    map (fun f => nth_error (fd_body f) 3) (functions (options_of m) (file_name m) out) = [Some (SVar "gcv" (XStr "__cov__"))] /\
    map fd_comment (functions (options_of m) (file_name m) out) =
      [Some "__coverage_data_json_comment__::{""all"":false,""path"":""a.js"",""statementMap"":{},""fnMap"":{},""branchMap"":{},""s"":{},""f"":{},""b"":{}}"].
Proof.
  cbv zeta. destruct (process no_ext _ 10 empty_module _) as [[out p]|r|] eqn:H; vm_compute in H; try discriminate H.
  injection H as <- <-. eexists _, _. split; [reflexivity|]. repeat split; vm_compute; reflexivity.
Qed.
