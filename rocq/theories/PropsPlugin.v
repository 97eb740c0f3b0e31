(** Property theorems proved in [Plugin.v]; generated by tools/genprops.py. *)
From Coq Require Import NArith String Ascii List Bool Lia PeanoNat.
Import ListNotations.
From Verif Require Import Base IndexMap Decimal Oxide SipHash SourceCov Hints Ast Visitor VisitorRel Erase Counting CountingRoot Suppress Json Options.
Open Scope string_scope.
From Verif Require Import Plugin.

Theorem C24_own_name_refuted : exists x fs os p' a b o1 o2,
  fs = [(plain_meta a, 10%nat, empty_module); (plain_meta b, 10%nat, empty_module)] /\
  process_all x fs proc0 = Ok (os, p') /\ os = [o1; o2] /\
  fn_name a <> fn_name b /\ out_names o1 = out_names o2 /\ option_map fst (out_names o2) = Some (fn_name a).
Proof. exact (@own_name_refuted). Qed.
Print Assumptions C24_own_name_refuted.

Theorem C24_all_names_of_first : forall x fs p os p' f g, p_fn p = Some f -> p_temp p = Some g ->
  process_all x fs p = Ok (os, p') ->
  Forall2 (fun mnt o => out_names o =
     if excluded x (options_of (fst (fst mnt))) (file_name (fst (fst mnt))) then None else Some (f, g)) fs os /\
  p_fn p' = Some f /\ p_temp p' = Some g.
Proof. exact (@all_names_of_first). Qed.
Print Assumptions C24_all_names_of_first.

Theorem C24_first_file_name : forall x m n t out p', excluded x (options_of m) (file_name m) = false ->
  process x m n t proc0 = Ok (out, p') ->
  out_names out = Some ("cov_" ++ dec (hash_str (file_name m)), "cov_" ++ dec (hash_str (file_name m)) ++ "_temp").
Proof. exact (@first_file_name). Qed.
Print Assumptions C24_first_file_name.

Theorem C24_names_agree_iff : forall a b, fn_name a = fn_name b <-> hash_str a = hash_str b.
Proof. exact (@names_agree_iff). Qed.
Print Assumptions C24_names_agree_iff.

Theorem C27_excluded_unchanged : forall x m n t p, excluded x (options_of m) (file_name m) = true ->
  process x m n t p = Ok (mkOutput t None, p).
Proof. exact (@excluded_unchanged). Qed.
Print Assumptions C27_excluded_unchanged.

Theorem C27_ignored_unchanged : forall x m n t p out p', should_ignore_file (m_word m) (m_comments m) (nspan t) = true ->
  process x m n t p = Ok (out, p') -> out_program out = t.
Proof. exact (@ignored_unchanged). Qed.
Print Assumptions C27_ignored_unchanged.

Theorem C27_instrumented_otherwise : forall x m n t p out p' items,
  program_items t = Some items -> forallb (good false) items = true -> clean t = true ->
  process x m n t p = Ok (out, p') ->
  excluded x (options_of m) (file_name m) = false ->
  should_ignore_file (m_word m) (m_comments m) (nspan t) = false ->
  exists sc, instrument (env_of (options_of m) m) n (file_name m) (o_source_map (options_of m)) t = Ok (out_program out, sc) /\
    templates (out_program out) = [sc_fc sc].
Proof. exact (@instrumented_otherwise). Qed.
Print Assumptions C27_instrumented_otherwise.

Theorem C27_process_cases : forall x m n t p,
  let o := options_of m in
  process x m n t p =
  if excluded x o (file_name m) then Ok (mkOutput t None, p)
  else if match lo_level (o_log o) with Some s => log_level s | None => false end && p_log p then Panic RLogInit
  else
    let p1 := mkProc (get_or_init (p_fn p) (fn_name (file_name m)))
                (get_or_init (p_temp p) (fn_name (file_name m) ++ "_temp"))
                (match lo_level (o_log o) with Some s => log_level s | None => false end || p_log p) in
    match instrument (mkEnv (m_comments m) (m_word m) (m_lookup m) (o_report_logic o) (o_ignore_methods o))
            n (file_name m) (o_source_map o) t with
    | Ok (t', _) => Ok (mkOutput t' (match p_fn p1, p_temp p1 with Some f, Some g => Some (f, g) | _, _ => None end), p1)
    | Panic r => Panic r
    | OutOfFuel => OutOfFuel
    end.
Proof. exact (@process_cases). Qed.
Print Assumptions C27_process_cases.

Theorem C27_exclude_ex :
  (let m := mkMeta (Some "src\a.js") (Some "{""unstableExclude"": [""src\\a.js""]}") no_comments (fun n => (n, 0%N)) (fun _ => false) in
   process exclude_ext m 10 empty_module proc0 = Ok (mkOutput empty_module None, proc0)) /\
  (let m := mkMeta (Some "src\b.js") (Some "{""unstableExclude"": [""src\\a.js""]}") no_comments (fun n => (n, 0%N)) (fun _ => false) in
   exists out p, process exclude_ext m 10 empty_module proc0 = Ok (out, p) /\ length (templates (out_program out)) = 1%nat).
Proof. exact (@exclude_ex). Qed.
Print Assumptions C27_exclude_ex.

Theorem C44_missing_file_name : forall x m n t p, m_file m = None ->
  process x m n t p = process x (mkMeta (Some "unknown.js") (m_config m) (m_comments m) (m_lookup m) (m_word m)) n t p.
Proof. exact (@missing_file_name). Qed.
Print Assumptions C44_missing_file_name.

Theorem C44_bad_config : forall x m n t p c, m_config m = Some c -> decode_options c = None ->
  process x m n t p = process x (mkMeta (m_file m) None (m_comments m) (m_lookup m) (m_word m)) n t p /\
  options_of m = mkOptions "__coverage__" false false [] None (mkLog None false) false None.
Proof. exact (@bad_config). Qed.
Print Assumptions C44_bad_config.

Theorem C44_good_config : forall m c o, m_config m = Some c -> decode_options c = Some o -> options_of m = o.
Proof. exact (@good_config). Qed.
Print Assumptions C44_good_config.

Theorem C44_bad_patterns : forall x o file m n t p pats, o_exclude o = Some pats ->
  x_glob x (map (normalize_path x) pats) = None ->
  process_with x o file m n t p = process_with x (no_exclude o) file m n t p.
Proof. exact (@bad_patterns). Qed.
Print Assumptions C44_bad_patterns.

Theorem C44_excluded_iff : forall x o file, excluded x o file = true <->
  exists pats is_match, o_exclude o = Some pats /\ x_glob x (map (normalize_path x) pats) = Some is_match /\
    is_match (normalize_path x file) = true.
Proof. exact (@excluded_iff). Qed.
Print Assumptions C44_excluded_iff.

Theorem C44_normalize_path_spec_partial : forall x p, x_windows x p = None ->
  has_backslash (normalize_path x p) = false /\
  (forall n, String.get n (normalize_path x p) =
     option_map (fun c => if Ascii.eqb c backslash then "/"%char else c) (String.get n p)) /\
  (has_backslash p = false -> normalize_path x p = p) /\
  (x_windows x (normalize_path x p) = None -> normalize_path x (normalize_path x p) = normalize_path x p).
Proof. exact (@normalize_path_spec_partial). Qed.
Print Assumptions C44_normalize_path_spec_partial.

Theorem C44_normalize_ex : forall x, x_windows x "project\src\test\file.ts" = None ->
  normalize_path x "project\src\test\file.ts" = "project/src/test/file.ts".
Proof. exact (@normalize_ex). Qed.
Print Assumptions C44_normalize_ex.

Theorem C44_exclude_ex :
  (let m := mkMeta (Some "src\a.js") (Some "{""unstableExclude"": [""src\\a.js""]}") no_comments (fun n => (n, 0%N)) (fun _ => false) in
   process exclude_ext m 10 empty_module proc0 = Ok (mkOutput empty_module None, proc0)) /\
  (let m := mkMeta (Some "src\b.js") (Some "{""unstableExclude"": [""src\\a.js""]}") no_comments (fun n => (n, 0%N)) (fun _ => false) in
   exists out p, process exclude_ext m 10 empty_module proc0 = Ok (out, p) /\ length (templates (out_program out)) = 1%nat).
Proof. exact (@exclude_ex). Qed.
Print Assumptions C44_exclude_ex.

Theorem C48_good_config : forall m c o, m_config m = Some c -> decode_options c = Some o -> options_of m = o.
Proof. exact (@good_config). Qed.
Print Assumptions C48_good_config.

