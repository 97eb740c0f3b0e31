(** The repository's own unit tests of the [istanbul-oxide] crate and of [SourceCoverage], run on the
    model. (The tests of [percent] stand in Percent.v, three more of [FileCoverage] in Oxide.v.) *)
From Coq Require Import NArith ZArith String List Bool.
Import ListNotations.
From Verif Require Import Base IndexMap Float Oxide SourceCov.
Open Scope string_scope. Open Scope list_scope. Open Scope N_scope.

Definition pct (n : Z) : coverage_percentage := PValue (f32_of_Z n).
(** file_coverage.rs:391-476, the record of the tests with its tables numbered from [i] *)
Definition base (i : N) (s : list N) (f : N) (b : list N) (bt : option (list N)) (all : bool) : file_coverage :=
  mkFC all "/path/to/file"
    [(i, range_new 1 1 1 100); (i + 1, range_new 2 1 2 50); (i + 2, range_new 2 51 2 100);
     (i + 3, range_new 2 101 3 100)]
    [(i, mkFunc "foobar" range_default (range_new 1 1 1 50) 1)]
    [(i, mkBranch None BIf [range_new 2 1 2 20; range_new 2 50 2 100] (Some 2))]
    (combine [i; i + 1; i + 2; i + 3] s) [(i, f)] [(i, b)] (option_map (fun v => [(i, v)]) bt) None.
Definition four (s : coverage_summary) := (cs_statements s, cs_lines s, cs_functions s, cs_branches s).
Definition summary_of (c : res file_coverage) : res (totals * totals * totals * totals) :=
  let* c := c in let* s := to_summary Debug c in Ok (four s).
Definition hits_of (c : res file_coverage) :=
  let* c := c in Ok (fc_s c, fc_f c, fc_b c, fc_b_t c).

(** should_able_to_merge_another_file *)
Definition mf1 := base 0 [1; 0; 0; 0] 1 [1; 0] None false.
Definition mf2 := base 0 [0; 1; 0; 0] 1 [0; 2] None false.
Definition half := (mkTotals 4 1 0 (pct 25), mkTotals 2 1 0 (pct 50), mkTotals 1 1 0 (pct 100), mkTotals 2 1 0 (pct 50)).
Definition full := (mkTotals 4 2 0 (pct 50), mkTotals 2 2 0 (pct 100), mkTotals 1 1 0 (pct 100), mkTotals 2 2 0 (pct 100)).
Example merge_another_file :
  summary_of (Ok mf1) = Ok half /\ summary_of (fc_merge Debug mf1 mf2) = Ok full /\
  hits_of (fc_merge Debug mf1 mf2) = Ok ([(0, 1); (1, 1); (2, 0); (3, 0)], [(0, 2)], [(0, [1; 2])], None).
Proof. vm_compute. auto. Qed.

(** should_able_to_merge_another_file_with_different_starting_indices *)
Definition mf3 := base 1 [0; 1; 0; 0] 1 [0; 2] None false.
Example merge_different_indices :
  summary_of (fc_merge Debug mf1 mf3) = Ok full /\
  hits_of (fc_merge Debug mf1 mf3) = Ok ([(0, 1); (1, 1); (2, 0); (3, 0)], [(0, 2)], [(0, [1; 2])], None).
Proof. vm_compute. auto. Qed.

(** should_drop_data_while_merge *)
Definition created (all : bool) : file_coverage :=
  if all then base 1 [0; 0; 0; 0] 0 [0; 0] None true else base 1 [1; 0; 0; 0] 1 [1; 0] None false.
Example merge_drops_all :
  fc_merge Debug (created true) (created false) = Ok (created false) /\
  fc_merge Debug (created false) (created true) = Ok (created false).
Proof. vm_compute. auto. Qed.

(** merges_another_file_coverage_tracks_logical_truthiness *)
Definition mt1 := base 0 [1; 0; 0; 0] 1 [1; 0] (Some [1]) false.
Definition mt2 := base 0 [0; 1; 0; 0] 1 [0; 2] (Some [0; 2]) false.
Example merge_truthiness :
  summary_of (Ok mt1) = Ok half /\ summary_of (fc_merge Debug mt1 mt2) = Ok full /\
  hits_of (fc_merge Debug mt1 mt2) =
    Ok ([(0, 1); (1, 1); (2, 0); (3, 0)], [(0, 2)], [(0, [1; 2])], Some [(0, [1; 2])]).
Proof. vm_compute. auto. Qed.

(** should_reset_hits *)
Example resets_hits :
  hits_of (Ok (reset_hits (base 1 [2; 3; 1; 0] 54 [1; 50] (Some [1; 50]) false))) =
    Ok ([(1, 0); (2, 0); (3, 0); (4, 0)], [(1, 0)], [(1, [0; 0])], Some [(1, [0; 0])]).
Proof. vm_compute. auto. Qed.

(** should_return_branch_coverage_by_line_with_cobertura_branchmap_structure *)
Example branch_by_line_cobertura :
  get_branch_coverage_by_line
    (mkFC false "/path/to/file" [] []
       [(1, mkBranch (Some (range_new 1 1 1 100)) BIf [] None);
        (2, mkBranch (Some (range_new 2 50 2 100)) BIf [] None)]
       [] [] [(1, [1; 0]); (2, [0; 0; 0; 1])] None None) =
  Ok [(1, mkCov 1 2 (f32_of_Z 50)); (2, mkCov 1 4 (f32_of_Z 25))].
Proof. vm_compute. reflexivity. Qed.

(** should_allow_file_coverage_to_be_init_with_logical_truthiness *)
Example init_truthiness : fc_b_t (fc_empty "" false) = None /\ fc_b_t (fc_empty "" true) = Some [].
Proof. auto. Qed.

(** coverage_map.rs:93-154, the four tests *)
Definition files (l : list string) : res coverage_map := cm_from_iter Debug (map (fun p => fc_empty p false) l).
Example map_merge :
  (let* a := files ["foo.js"; "bar.js"] in let* b := files ["foo.js"; "baz.js"] in
   let* c := cm_merge Debug a b in Ok (cm_get_files c)) = Ok ["foo.js"; "bar.js"; "baz.js"].
Proof. vm_compute. reflexivity. Qed.
Example map_file_coverage :
  (let* a := files ["foo.js"; "bar.js"] in
   Ok (map (fun p => match cm_get_coverage_for_file a p with Some _ => true | None => false end)
         ["foo.js"; "bar.js"; "baz.js"])) = Ok [true; true; false].
Proof. vm_compute. reflexivity. Qed.
Example map_filter :
  (let* a := files ["foo.js"; "bar.js"] in
   Ok (cm_get_files a, cm_get_files (cm_filter (fun x => String.eqb (fc_path x) "foo.js") a))) =
  Ok (["foo.js"; "bar.js"], ["foo.js"]).
Proof. vm_compute. reflexivity. Qed.
Example map_summary :
  (let* a := files ["foo.js"; "bar.js"] in
   let* a := add_coverage_for_file Debug a (fc_empty "foo.js" false) in
   let* a := add_coverage_for_file Debug a (fc_empty "baz.js" false) in
   let* s := cm_get_coverage_summary Debug a in Ok (t_total (cs_statements s))) = Ok 0.
Proof. vm_compute. reflexivity. Qed.

(** coverage_summary.rs:147-179 *)
Example summary_empty : summary_is_empty summary_default = true.
Proof. reflexivity. Qed.
Example summary_merges :
  let basic := mkTotals 5 4 0 (pct 80) in
  let more := mkTotals 5 5 0 (pct 80) in
  (let* s := summary_merge Debug (mkSummary basic basic basic totals_default (Some totals_default))
               (mkSummary basic more basic totals_default (Some totals_default)) in
   Ok (cs_statements s, t_pct (cs_branches s), option_map t_pct (cs_branches_true s))) =
  Ok (mkTotals 10 9 0 (pct 90), pct 100, Some (pct 100)).
Proof. vm_compute. reflexivity. Qed.

(** types.rs:72-85 *)
Example kebab_strings :
  map branch_type_str [BinaryExpr; DefaultArg; BIf; BSwitch; CondExpr] =
    ["binary-expr"; "default-arg"; "if"; "switch"; "cond-expr"].
Proof. reflexivity. Qed.

(** source_coverage/mod.rs:191-: the five tests *)
Definition dummy := range_new 2 3 5 2.
Definition decl := range_new 3 1 4 5.
Definition path_range := range_new 3 3 4 4.
Definition anon := sc_new "anon" false.
Example inserts_statement :
  (fc_s (sc_fc anon), fc_statement_map (sc_fc anon)) = ([], []) /\
  (let (sc, i) := new_statement dummy anon in (i, fc_s (sc_fc sc), fc_statement_map (sc_fc sc), sc_s sc)) =
    (0, [(0, 0)], [(0, dummy)], 1).
Proof. vm_compute. auto. Qed.
Example inserts_function :
  (let (sc, i) := new_function None decl dummy anon in
   let (sc', j) := new_function (Some "dummy") decl dummy sc in
   (i, fc_f (sc_fc sc), fc_fn_map (sc_fc sc), sc_f sc, (j, fc_f (sc_fc sc'), fc_fn_map (sc_fc sc'), sc_f sc'))) =
    (0, [(0, 0)], [(0, mkFunc "(anonymous_0)" decl dummy 2)], 1,
     (1, [(0, 0); (1, 0)],
      [(0, mkFunc "(anonymous_0)" decl dummy 2); (1, mkFunc "dummy" decl dummy 2)], 2)).
Proof. vm_compute. reflexivity. Qed.
Example inserts_branch :
  (let (sc, i) := new_branch CondExpr dummy false anon in
   let (sc', j) := new_branch BinaryExpr dummy true sc in
   (i, fc_b (sc_fc sc), fc_branch_map (sc_fc sc), sc_b sc,
    (j, fc_b (sc_fc sc'), fc_branch_map (sc_fc sc'), fc_b_t (sc_fc sc'), sc_b sc'))) =
    (0, [(0, [])], [(0, mkBranch (Some dummy) CondExpr [] (Some 2))], 1,
     (1, [(0, []); (1, [])],
      [(0, mkBranch (Some dummy) CondExpr [] (Some 2)); (1, mkBranch (Some dummy) BinaryExpr [] (Some 2))],
      Some [(1, [])], 2)).
Proof. vm_compute. reflexivity. Qed.
Example adds_branch_path :
  (let (sc, b) := new_branch BinaryExpr dummy true anon in
   let* (sc', p) := add_branch_path b path_range sc in
   Ok (p, fc_b (sc_fc sc'), fc_branch_map (sc_fc sc'))) =
  Ok (0, [(0, [0])], [(0, mkBranch (Some dummy) BinaryExpr [path_range] (Some 2))]).
Proof. vm_compute. reflexivity. Qed.
Example freezes :
  (let (sc, _) := new_branch CondExpr dummy false anon in
   let (sc, _) := new_branch BSwitch dummy true sc in
   let* (sc, _) := add_branch_path 0 path_range sc in
   let (sc, _) := new_statement dummy sc in
   let sc := freeze sc in
   Ok (length (fc_b (sc_fc sc)), length (fc_branch_map (sc_fc sc)))) = Ok (1%nat, 1%nat).
Proof. vm_compute. reflexivity. Qed.
