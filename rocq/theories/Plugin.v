(** The plugin entry point: file name, options, exclusion patterns, logging and the name of the
    counter function (C24, C27, C44).

    Two external libraries are parameters: the [typed-path] crate's Windows detection and conversion, and
    the [wax] glob matcher.  The options are decoded as in [Options.v]. *)
From Coq Require Import NArith String Ascii List Bool Lia PeanoNat.
Import ListNotations.
From Verif Require Import Base IndexMap Decimal Oxide SipHash SourceCov Hints Ast Visitor VisitorRel Erase Counting CountingRoot Suppress Json Options.
Open Scope string_scope.

Record ext := mkExt {
  x_windows : string -> option string;               (* Some: detected as Windows, its Unix form *)
  x_glob : list string -> option (string -> bool)    (* wax::any and Pattern::is_match *)
}.

(** ** Paths *)
Definition backslash : ascii := "092"%char.
Fixpoint has_backslash (s : string) : bool :=
  match s with "" => false | String c s' => Ascii.eqb c backslash || has_backslash s' end.
Fixpoint slashes (s : string) : string :=
  match s with
  | "" => ""
  | String c s' => String (if Ascii.eqb c backslash then "/" else c) (slashes s')
  end.
(** swc-plugin-coverage/src/lib.rs:17-28 *)
Definition normalize_path (x : ext) (p : string) : string :=
  match x_windows x p with
  | Some u => u
  | None => if has_backslash p then slashes p else p
  end.

(** ** Process-wide state *)
(** [COVERAGE_FN_IDENT], [COVERAGE_FN_TRUE_TEMP_IDENT] (create_coverage_fn_decl.rs:22-24) and the
    global log subscriber *)
Record proc := mkProc { p_fn : option string; p_temp : option string; p_log : bool }.
Definition proc0 : proc := mkProc None None false.
Definition get_or_init {A} (o : option A) (a : A) : option A := match o with Some _ => o | None => Some a end.
Definition fn_name (file : string) : string := "cov_" ++ dec (hash_str file).
(** create_coverage_fn_decl.rs:31-45 *)
Definition create_coverage_fn_ident (file : string) (p : proc) : proc :=
  mkProc (get_or_init (p_fn p) (fn_name file)) (get_or_init (p_temp p) (fn_name file ++ "_temp")) (p_log p).
(** swc-plugin-coverage/src/lib.rs:31-38 *)
Definition log_level (s : string) : bool :=
  existsb (String.eqb s) ["error"; "debug"; "info"; "warn"; "trace"].
(** swc-plugin-coverage/src/lib.rs:30-54; [init] panics when a subscriber is set already *)
Definition initialize_log (o : log_options) (p : proc) : res proc :=
  if match lo_level o with Some s => log_level s | None => false end
  then if p_log p then Panic RLogInit else Ok (mkProc (p_fn p) (p_temp p) true)
  else Ok p.

(** ** The transform *)
Record meta := mkMeta {
  m_file : option string;          (* TransformPluginMetadataContextKind::Filename *)
  m_config : option string;        (* get_transform_plugin_config *)
  m_comments : comments;
  m_lookup : N -> N * N;
  m_word : N -> bool
}.
Definition file_name (m : meta) : string := match m_file m with Some f => f | None => "unknown.js" end.
Definition options_of (m : meta) : options :=
  match m_config m with
  | Some c => match decode_options c with Some o => o | None => default_options end
  | None => default_options
  end.
(** lib.rs:77-98 *)
Definition excluded (x : ext) (o : options) (file : string) : bool :=
  match o_exclude o with
  | Some pats =>
      match x_glob x (map (normalize_path x) pats) with
      | Some is_match => is_match (normalize_path x file)
      | None => false
      end
  | None => false
  end.
Definition env_of (o : options) (m : meta) : env :=
  mkEnv (m_comments m) (m_word m) (m_lookup m) (o_report_logic o) (o_ignore_methods o).
(** What comes out: the program and, unless the file is excluded, the names used in it. *)
Record output := mkOutput { out_program : node; out_names : option (string * string) }.
(** coverage_visitor.rs:20-42 and lib.rs:100-109 *)
Definition instrument_with (o : options) (file : string) (m : meta) (n : nat) (t : node) (p : proc)
  : res (output * proc) :=
  let p1 := create_coverage_fn_ident file p in
  match p_fn p1, p_temp p1 with
  | Some f, Some g =>
      let* (t', _) := instrument (env_of o m) n file (o_source_map o) t in
      Ok (mkOutput t' (Some (f, g)), p1)
  | _, _ => Panic RMalformed
  end.
Definition process_with (x : ext) (o : options) (file : string) (m : meta) (n : nat) (t : node) (p : proc)
  : res (output * proc) :=
  if excluded x o file then Ok (mkOutput t None, p)
  else
    let* p1 := initialize_log (o_log o) p in
    instrument_with o file m n t p1.
(** lib.rs:57-109 *)
Definition process (x : ext) (m : meta) (n : nat) (t : node) (p : proc) : res (output * proc) :=
  process_with x (options_of m) (file_name m) m n t p.

(** ** Options and exclusion (C44) *)
Theorem missing_file_name : forall x m n t p, m_file m = None ->
  process x m n t p = process x (mkMeta (Some "unknown.js") (m_config m) (m_comments m) (m_lookup m) (m_word m)) n t p.
Proof. intros x [f c cm l w] n t p H. cbn in H. subst. reflexivity. Qed.
Theorem bad_config : forall x m n t p c, m_config m = Some c -> decode_options c = None ->
  process x m n t p = process x (mkMeta (m_file m) None (m_comments m) (m_lookup m) (m_word m)) n t p /\
  options_of m = mkOptions "__coverage__" false false [] None (mkLog None false) false None.
Proof.
  intros x [f c cm l w] n t p c' H D. cbn in H. subst.
  unfold process, options_of, file_name. cbn [m_config m_file]. rewrite D. split; reflexivity.
Qed.
Theorem good_config : forall m c o, m_config m = Some c -> decode_options c = Some o -> options_of m = o.
Proof. intros m c o H D. unfold options_of. now rewrite H, D. Qed.
Definition no_exclude (o : options) : options :=
  mkOptions (o_variable o) (o_compact o) (o_report_logic o) (o_ignore_methods o) (o_source_map o) (o_log o) (o_debug_comment o) None.
Theorem bad_patterns : forall x o file m n t p pats, o_exclude o = Some pats ->
  x_glob x (map (normalize_path x) pats) = None ->
  process_with x o file m n t p = process_with x (no_exclude o) file m n t p.
Proof.
  intros x o file m n t p pats H D. unfold process_with, excluded. rewrite H, D. destruct o. reflexivity.
Qed.
Theorem excluded_iff : forall x o file, excluded x o file = true <->
  exists pats is_match, o_exclude o = Some pats /\ x_glob x (map (normalize_path x) pats) = Some is_match /\
    is_match (normalize_path x file) = true.
Proof.
  intros x o file. unfold excluded. destruct (o_exclude o) as [pats|].
  - destruct (x_glob x _) as [f|] eqn:E; split; intros H; try discriminate.
    + exists pats, f. auto.
    + destruct H as (p & g & Hp & Hg & Hm). injection Hp as <-. congruence.
    + destruct H as (p & g & Hp & Hg & _). injection Hp as <-. congruence.
  - split; [discriminate|]. intros (p & g & H & _). discriminate.
Qed.
Lemma slashes_plain : forall s, has_backslash s = false -> slashes s = s.
Proof.
  induction s as [|c s IH]; [reflexivity|]. cbn. intros H. apply orb_false_iff in H as [H1 H2]. now rewrite H1, IH.
Qed.
Lemma slashes_clean : forall s, has_backslash (slashes s) = false.
Proof.
  induction s as [|c s IH]; [reflexivity|]. cbn [slashes has_backslash]. rewrite IH, orb_false_r.
  destruct (Ascii.eqb c backslash) eqn:E; [reflexivity|exact E].
Qed.
Lemma slashes_get : forall s n, String.get n (slashes s) =
  option_map (fun c => if Ascii.eqb c backslash then "/"%char else c) (String.get n s).
Proof. induction s as [|c s IH]; intros [|n]; try reflexivity. apply IH. Qed.
(** For every path not detected as a Windows path: no backslash is left, every other character stays
    in its place, a path without backslash is untouched, and normalising twice changes nothing. *)
Theorem normalize_path_spec_partial : forall x p, x_windows x p = None ->
  has_backslash (normalize_path x p) = false /\
  (forall n, String.get n (normalize_path x p) =
     option_map (fun c => if Ascii.eqb c backslash then "/"%char else c) (String.get n p)) /\
  (has_backslash p = false -> normalize_path x p = p) /\
  (x_windows x (normalize_path x p) = None -> normalize_path x (normalize_path x p) = normalize_path x p).
Proof.
  intros x p H.
  assert (E : normalize_path x p = slashes p).
  { unfold normalize_path. rewrite H. destruct (has_backslash p) eqn:B; [reflexivity|]. now rewrite slashes_plain. }
  rewrite E. split; [apply slashes_clean|]. split; [apply slashes_get|]. split; [apply slashes_plain|].
  intros W. unfold normalize_path. now rewrite W, slashes_clean.
Qed.
Example normalize_ex : forall x, x_windows x "project\src\test\file.ts" = None ->
  normalize_path x "project\src\test\file.ts" = "project/src/test/file.ts".
Proof. intros x H. unfold normalize_path. rewrite H. reflexivity. Qed.

(** ** Excluded and ignored files (C27) *)
(** What [process] returns, in every case *)
Theorem process_cases : forall x m n t p,
  let o := options_of m in
  process x m n t p =
  if excluded x o (file_name m) then Ok (mkOutput t None, p)
  else if match lo_level (o_log o) with Some s => log_level s | None => false end && p_log p then Panic RLogInit
  else
    let p1 := mkProc (get_or_init (p_fn p) (fn_name (file_name m)))
                (get_or_init (p_temp p) (fn_name (file_name m) ++ "_temp"))
                (match lo_level (o_log o) with Some s => log_level s | None => false end || p_log p) in
    match instrument (mkEnv (m_comments m) (m_word m) (m_lookup m) (o_report_logic o) (o_ignore_methods o))
            n (file_name m) (o_source_map o) t with
    | Ok (t', _) => Ok (mkOutput t' (match p_fn p1, p_temp p1 with Some f, Some g => Some (f, g) | _, _ => None end), p1)
    | Panic r => Panic r
    | OutOfFuel => OutOfFuel
    end.
Proof.
  intros x m n t p o. unfold process, process_with. fold o. destruct (excluded x o (file_name m)); [reflexivity|].
  unfold initialize_log. destruct (match lo_level (o_log o) with Some s => log_level s | None => false end); cbn [andb orb].
  - destruct (p_log p); [reflexivity|]. cbn [bind]. unfold instrument_with, create_coverage_fn_ident. cbn [p_fn p_temp p_log].
    destruct (p_fn p), (p_temp p); cbn [get_or_init]; destruct (instrument _ _ _ _ _) as [[t' sc]|r|]; reflexivity.
  - cbn [bind]. unfold instrument_with, create_coverage_fn_ident. cbn [p_fn p_temp p_log].
    destruct (p_fn p), (p_temp p); cbn [get_or_init]; destruct (instrument _ _ _ _ _) as [[t' sc]|r|]; reflexivity.
Qed.
Theorem excluded_unchanged : forall x m n t p, excluded x (options_of m) (file_name m) = true ->
  process x m n t p = Ok (mkOutput t None, p).
Proof. intros x m n t p H. unfold process, process_with. now rewrite H. Qed.
Theorem ignored_unchanged : forall x m n t p out p', should_ignore_file (m_word m) (m_comments m) (nspan t) = true ->
  process x m n t p = Ok (out, p') -> out_program out = t.
Proof.
  intros x m n t p out p' H R. rewrite process_cases in R. destruct (excluded _ _ _).
  - injection R as <- _. reflexivity.
  - destruct (_ && p_log p); [discriminate|].
    rewrite (ignored_file (env_of (options_of m) m)) in R by exact H. injection R as <- _. reflexivity.
Qed.
(** Otherwise the counter function is in the output, once, with the file's record. *)
Theorem instrumented_otherwise : forall x m n t p out p' items,
  program_items t = Some items -> forallb (good false) items = true -> clean t = true ->
  process x m n t p = Ok (out, p') ->
  excluded x (options_of m) (file_name m) = false ->
  should_ignore_file (m_word m) (m_comments m) (nspan t) = false ->
  exists sc, instrument (env_of (options_of m) m) n (file_name m) (o_source_map (options_of m)) t = Ok (out_program out, sc) /\
    templates (out_program out) = [sc_fc sc].
Proof.
  intros x m n t p out p' items Hi Hg Hc R Hx Hf. rewrite process_cases in R. rewrite Hx in R.
  destruct (_ && p_log p); [discriminate|].
  destruct (instrument _ _ _ _ _) as [[t' sc]|r|] eqn:E; try discriminate. injection R as <- _. cbn [out_program].
  exists sc. split; [reflexivity|]. rewrite (embedded_record _ _ _ _ _ _ _ _ Hi Hg Hc E).
  cbn [e_word e_comments env_of]. now rewrite Hf.
Qed.

(** ** Names of the counter function (C24) *)
Lemma app_assoc_str : forall a b c : string, (a ++ b) ++ c = a ++ (b ++ c).
Proof. induction a as [|x a IH]; intros b c; [reflexivity|]. cbn. now rewrite IH. Qed.
(** In a process of its own a file gets a name determined by its name. *)
Theorem first_file_name : forall x m n t out p', excluded x (options_of m) (file_name m) = false ->
  process x m n t proc0 = Ok (out, p') ->
  out_names out = Some ("cov_" ++ dec (hash_str (file_name m)), "cov_" ++ dec (hash_str (file_name m)) ++ "_temp").
Proof.
  intros x m n t out p' Hx R. rewrite process_cases, Hx in R. cbn [proc0 p_log] in R. rewrite andb_false_r in R.
  destruct (instrument _ _ _ _ _) as [[t' sc]|r|]; try discriminate. injection R as <- _.
  cbn [out_names proc0 p_fn p_temp get_or_init]. unfold fn_name. now rewrite <- app_assoc_str.
Qed.
(** Names of two files agree exactly when the hashes do. *)
Theorem names_agree_iff : forall a b, fn_name a = fn_name b <-> hash_str a = hash_str b.
Proof.
  intros a b. unfold fn_name. split; [|now intros ->]. cbn. intros H.
  injection H as H. now apply dec_inj.
Qed.
(** Several files in one process *)
Fixpoint process_all (x : ext) (fs : list (meta * nat * node)) (p : proc) : res (list output * proc) :=
  match fs with
  | [] => Ok ([], p)
  | (m, n, t) :: fs' =>
      let* (o, p1) := process x m n t p in
      let* (os, p2) := process_all x fs' p1 in
      Ok (o :: os, p2)
  end.
(** Every file that is not excluded uses the names of the first such file of the process. *)
Theorem all_names_of_first : forall x fs p os p' f g, p_fn p = Some f -> p_temp p = Some g ->
  process_all x fs p = Ok (os, p') ->
  Forall2 (fun mnt o => out_names o =
     if excluded x (options_of (fst (fst mnt))) (file_name (fst (fst mnt))) then None else Some (f, g)) fs os /\
  p_fn p' = Some f /\ p_temp p' = Some g.
Proof.
  intros x fs. induction fs as [|[[m n] t] fs IH]; intros p os p' f g Hf Hg H.
  - injection H as <- <-. auto.
  - cbn [process_all] in H. destruct (process x m n t p) as [[o p1]|r|] eqn:E; try discriminate. cbn [bind] in H.
    destruct (process_all x fs p1) as [[os1 p2]|r|] eqn:E2; try discriminate. cbn [bind] in H. injection H as <- <-.
    assert (K : out_names o = (if excluded x (options_of m) (file_name m) then None else Some (f, g)) /\
                p_fn p1 = Some f /\ p_temp p1 = Some g).
    { rewrite process_cases in E. destruct (excluded _ _ _).
      - injection E as <- <-. auto.
      - destruct (_ && p_log p); [discriminate|]. destruct (instrument _ _ _ _ _) as [[t' sc]|r|]; try discriminate.
        injection E as <- <-. cbn [out_names p_fn p_temp]. now rewrite Hf, Hg. }
    destruct K as (K1 & K2 & K3). destruct (IH p1 os1 p2 f g K2 K3 E2) as (A & B). split; [|exact B].
    constructor; [exact K1|exact A].
Qed.
(** C24 is false of the code: two files with different names (and different hashes) in one process
    get the same counter function name. *)
Definition no_comments : comments := mkComments (fun _ => None) (fun _ => None).
Definition plain_meta (file : string) : meta :=
  mkMeta (Some file) None no_comments (fun n => (n, 0%N)) (fun _ => false).
Definition empty_module : node := Node KModule dummy_span [Node KModuleItems dummy_span []].
Definition no_ext : ext := mkExt (fun _ => None) (fun _ => None).
Theorem own_name_refuted : exists x fs os p' a b o1 o2,
  fs = [(plain_meta a, 10%nat, empty_module); (plain_meta b, 10%nat, empty_module)] /\
  process_all x fs proc0 = Ok (os, p') /\ os = [o1; o2] /\
  fn_name a <> fn_name b /\ out_names o1 = out_names o2 /\ option_map fst (out_names o2) = Some (fn_name a).
Proof.
  exists no_ext. do 3 eexists. exists "a.js", "b.js". do 2 eexists. split; [reflexivity|].
  split; [vm_compute; reflexivity|]. split; [reflexivity|]. split; [vm_compute; discriminate|]. split; [reflexivity|].
  vm_compute. reflexivity.
Qed.
(** The second file logging in the same process crashes. *)
Theorem log_twice : forall x m n t p s, excluded x (options_of m) (file_name m) = false ->
  lo_level (o_log (options_of m)) = Some s -> log_level s = true -> p_log p = true ->
  process x m n t p = Panic RLogInit.
Proof. intros x m n t p s Hx Hl Hs Hp. rewrite process_cases, Hx, Hl, Hs, Hp. reflexivity. Qed.
(** Non-vacuity: an excluded file, an ignored one is covered by [ignored_file], an ordinary one. *)
Definition exclude_ext : ext :=
  mkExt (fun _ => None) (fun pats => Some (fun f => existsb (String.eqb f) pats)).
Example exclude_ex :
  (let m := mkMeta (Some "src\a.js") (Some "{""unstableExclude"": [""src\\a.js""]}") no_comments (fun n => (n, 0%N)) (fun _ => false) in
   process exclude_ext m 10 empty_module proc0 = Ok (mkOutput empty_module None, proc0)) /\
  (let m := mkMeta (Some "src\b.js") (Some "{""unstableExclude"": [""src\\a.js""]}") no_comments (fun n => (n, 0%N)) (fun _ => false) in
   exists out p, process exclude_ext m 10 empty_module proc0 = Ok (out, p) /\ length (templates (out_program out)) = 1%nat).
Proof. split; [reflexivity|]. do 2 eexists. split; [vm_compute; reflexivity|reflexivity]. Qed.
