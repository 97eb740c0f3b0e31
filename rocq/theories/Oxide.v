(** Model of the [istanbul-oxide] crate (packages/istanbul-oxide/src). *)
From Coq Require Import NArith ZArith String List Bool Lia.
From Coq Require Import Floats.SpecFloat.
Import ListNotations.
From Verif Require Import Base IndexMap Decimal Float.
Open Scope N_scope.

(** range.rs:3-7 *)
Record location := mkLoc { line : N; column : N }.
(** range.rs:14-18 *)
Record range := mkRange { rstart : location; rend : location }.
(** range.rs:27-38 [Range::new] *)
Definition range_new (sl sc el ec : N) : range :=
  mkRange (mkLoc sl sc) (mkLoc el ec).
(** range.rs:14, derived [Default] *)
Definition range_default : range := range_new 0 0 0 0.

(** types.rs:6-12 *)
Record func := mkFunc { f_name : string; f_decl : range; f_loc : range; f_line : N }.

(** types.rs:14-22 *)
Inductive branch_type := BinaryExpr | DefaultArg | BIf | BSwitch | CondExpr.

(** types.rs:24-34 [to_string] (the serde [kebab-case] rename gives the same strings) *)
Definition branch_type_str (t : branch_type) : string :=
  match t with
  | BinaryExpr => "binary-expr"
  | DefaultArg => "default-arg"
  | BIf => "if"
  | BSwitch => "switch"
  | CondExpr => "cond-expr"
  end%string.

(** types.rs:36-43 *)
Record branch := mkBranch {
  b_loc : option range;
  b_type : branch_type;
  b_locations : list range;
  b_line : option N
}.

(** source_map.rs:3-16 *)
Record source_map := mkSourceMap {
  sm_version : N;
  sm_file : option string;
  sm_source_root : option string;
  sm_sources : list string;
  sm_sources_content : option (list (option string));
  sm_names : list string;
  sm_mappings : string
}.

(** types.rs:65-70: LineHitMap, StatementMap, FunctionMap, BranchMap, BranchHitMap *)
Definition line_hit_map := imap N N.
Definition statement_map := imap N range.
Definition function_map := imap N func.
Definition branch_map := imap N branch.
Definition branch_hit_map := imap N (list N).

(** file_coverage.rs:127-143 *)
Record file_coverage := mkFC {
  fc_all : bool;
  fc_path : string;
  fc_statement_map : statement_map;
  fc_fn_map : function_map;
  fc_branch_map : branch_map;
  fc_s : line_hit_map;
  fc_f : line_hit_map;
  fc_b : branch_hit_map;
  fc_b_t : option branch_hit_map;
  fc_input_source_map : option source_map
}.

(** file_coverage.rs:146-163 [empty] (and [from_file_path] 165-167) *)
Definition fc_empty (path : string) (report_logic : bool) : file_coverage :=
  mkFC false path [] [] [] [] [] [] (if report_logic then Some [] else None) None.

(** file_coverage.rs:12-17 *)
Definition key_from_loc (r : range) : string :=
  (dec (line (rstart r)) ++ "|" ++ dec (column (rstart r)) ++ "|" ++
   dec (line (rend r)) ++ "|" ++ dec (column (rend r)))%string.

(** ** Merging *)
Section Merge.
(** [H] is u32 for [merge_properties] and Vec<u32> for [merge_properties_hits_vec];
    [add] is the body of the [and_modify] closure on the hits component. The two
    Rust functions are textually the same otherwise, so the model has one. *)
Context {T H : Type} (add : H -> H -> res H) (get_item_key : T -> res string).

(** file_coverage.rs:28-35 / 81-88: first loop, [items.insert] *)
Definition merge_loop1 (map1 : imap N T) (items : imap string (H * T)) (kh : N * H)
  : res (imap string (H * T)) :=
  let* item := expect RMapValueMissing (im_get (fst kh) map1) in
  let* item_key := get_item_key item in
  Ok (im_insert item_key (snd kh, item) items).

(** file_coverage.rs:37-55 / 90-103: second loop, [entry().and_modify().or_insert()] *)
Definition merge_loop2 (map2 : imap N T) (items : imap string (H * T)) (kh : N * H)
  : res (imap string (H * T)) :=
  let* item := expect RMapValueMissing (im_get (fst kh) map2) in
  let* item_key := get_item_key item in
  im_upsert item_key
    (fun pair => let* h := add (fst pair) (snd kh) in Ok (h, snd pair))
    (snd kh, item) items.

(** file_coverage.rs:57-65 / 105-111: renumbering *)
Definition merge_renumber (items : imap string (H * T)) : imap N H * imap N T :=
  (number_from 0 (map fst (im_values items)),
   number_from 0 (map snd (im_values items))).

(** file_coverage.rs:19-66 / 68-112 *)
Definition merge_properties_gen
    (hits1 : imap N H) (map1 : imap N T) (hits2 : imap N H) (map2 : imap N T)
  : res (imap N H * imap N T) :=
  let* items1 := fold_res (merge_loop1 map1) [] hits1 in
  let* items2 := fold_res (merge_loop2 map2) items1 hits2 in
  Ok (merge_renumber items2).
End Merge.

(** file_coverage.rs:68-112 *)
Definition merge_properties {T} (m : ovf_mode) (key : T -> res string) :=
  merge_properties_gen (T := T) (H := N) (u32_add m) key.

(** file_coverage.rs:51-53: [for (h, hits) in item_hits.iter().enumerate() { pair.0[h] += hits }]
    after the resize: [pair0] is at least as long as [item]. *)
Fixpoint vec_add_in (m : ovf_mode) (pair0 item : list N) : res (list N) :=
  match pair0, item with
  | p, [] => Ok p
  | [], _ :: _ => Panic RIndex
  | x :: p, y :: it =>
      let* z := u32_add m x y in
      let* r := vec_add_in m p it in
      Ok (z :: r)
  end.

(** file_coverage.rs:47-49: [resize(len, 0)] when shorter *)
Definition vec_resize (l : list N) (n : nat) : list N :=
  (l ++ repeat 0 (n - length l))%list.

(** file_coverage.rs:46-54 *)
Definition vec_add (m : ovf_mode) (pair0 item : list N) : res (list N) :=
  let p := if (length pair0 <? length item)%nat then vec_resize pair0 (length item) else pair0 in
  vec_add_in m p item.

(** file_coverage.rs:19-66 *)
Definition merge_properties_hits_vec (m : ovf_mode) (key : branch -> res string) :=
  merge_properties_gen (T := branch) (H := list N) (vec_add m) key.

(** file_coverage.rs:290, 306: [|branch| key_from_loc(&branch.locations[0])] *)
Definition branch_key (b : branch) : res string :=
  match b_locations b with
  | [] => Panic RIndex
  | r :: _ => Ok (key_from_loc r)
  end.

(** file_coverage.rs:259-316 [merge] *)
Definition fc_merge (m : ovf_mode) (self coverage : file_coverage) : res file_coverage :=
  if fc_all coverage then Ok self
  else if fc_all self then Ok coverage
  else
    let* (s, sm) := merge_properties m (fun r => Ok (key_from_loc r))
        (fc_s self) (fc_statement_map self) (fc_s coverage) (fc_statement_map coverage) in
    let* (f, fm) := merge_properties m (fun fn => Ok (key_from_loc (f_loc fn)))
        (fc_f self) (fc_fn_map self) (fc_f coverage) (fc_fn_map coverage) in
    let* (b, bm) := merge_properties_hits_vec m branch_key
        (fc_b self) (fc_branch_map self) (fc_b coverage) (fc_branch_map coverage) in
    let* bt :=
      match fc_b_t self, fc_b_t coverage with
      | Some bt1, Some bt2 =>
          (* self.branch_map has already been replaced by bm (293-294) *)
          let* (bt, _) := merge_properties_hits_vec m branch_key
              bt1 bm bt2 (fc_branch_map coverage) in
          Ok (Some bt)
      | _, _ => Ok (fc_b_t self)
      end in
    Ok (mkFC (fc_all self) (fc_path self) sm fm bm s f b bt (fc_input_source_map self)).

(** ** Line and branch views *)

(** file_coverage.rs:182-200, body of the loop of [get_line_coverage] *)
Definition line_step (sm : statement_map) (lm : line_hit_map) (sc : N * N) : res line_hit_map :=
  let* r := expect RStatementMissing (im_get (fst sc) sm) in
  let l := line (rstart r) in
  match im_get l lm with
  | Some pre_val => if pre_val <? snd sc then Ok (im_insert l (snd sc) lm) else Ok lm
  | None => Ok (im_insert l (snd sc) lm)
  end.

(** file_coverage.rs:175-203 *)
Definition get_line_coverage (fc : file_coverage) : res line_hit_map :=
  fold_res (line_step (fc_statement_map fc)) [] (fc_s fc).

(** file_coverage.rs:206-217 *)
Definition get_uncovered_lines (fc : file_coverage) : res (list N) :=
  let* lc := get_line_coverage fc in
  Ok (map fst (filter (fun lh => snd lh =? 0) lc)).

(** coverage.rs:2-6 *)
Record coverage := mkCov { c_covered : N; c_total : N; c_coverage : f32 }.

(** file_coverage.rs:227-231 *)
Definition branch_line (b : branch) : res N :=
  match b_line b with
  | Some l => Ok l
  | None => let* r := expect RLineOrLoc (b_loc b) in Ok (line (rstart r))
  end.

(** file_coverage.rs:226-240, body of the first loop of [get_branch_coverage_by_line] *)
Definition prefilter_step (bh : branch_hit_map) (pd : branch_hit_map) (kb : N * branch)
  : res branch_hit_map :=
  let* l := branch_line (snd kb) in
  let* data := expect RBranchMissing (im_get (fst kb) bh) in
  match im_get l pd with
  | Some _ => Ok (im_update l (fun d => (d ++ data)%list) pd)
  | None => Ok (im_insert l data pd)
  end.

Definition f32_of_nat (n : nat) : f32 := f32_of_Z (Z.of_nat n).

Definition positive_hits (l : list N) : nat := length (filter (fun x => 0 <? x) l).

(** file_coverage.rs:243-244 *)
Definition coverage_of (data : list N) : coverage :=
  let covered := positive_hits data in
  mkCov (N.of_nat covered) (N.of_nat (length data))
    (f32_mul (f32_div (f32_of_nat covered) (f32_of_nat (length data))) (f32_of_Z 100)).

(** file_coverage.rs:219-253 *)
Definition get_branch_coverage_by_line (fc : file_coverage) : res (imap N coverage) :=
  let* pd := fold_res (prefilter_step (fc_b fc)) [] (fc_branch_map fc) in
  Ok (map (fun kd => (fst kd, coverage_of (snd kd))) pd).

(** ** Summaries *)

(** percent.rs:1-8 *)
Definition percent (covered total : N) : f32 :=
  if 0 <? total then
    let tmp : f64 := f64_of_Z (Z.of_N ((1000 * 100 * covered) / total)) in
    f32_div (f32_floor (f32_div (f64_to_f32 tmp) (f32_of_Z 10))) (f32_of_Z 100)
  else f32_of_Z 100.

(** coverage_summary.rs:4-7 *)
Inductive coverage_percentage := PUnknown | PValue (v : f32).

(** coverage_summary.rs:16-21 *)
Record totals := mkTotals { t_total : N; t_covered : N; t_skipped : N; t_pct : coverage_percentage }.

(** coverage_summary.rs:15, 33-40 [Default] *)
Definition totals_default : totals := mkTotals 0 0 0 PUnknown.

(** coverage_summary.rs:44-50 *)
Record coverage_summary := mkSummary {
  cs_lines : totals;
  cs_statements : totals;
  cs_functions : totals;
  cs_branches : totals;
  cs_branches_true : option totals
}.

(** coverage_summary.rs:43: the derived [Default::default()] (used by
    coverage_map.rs:78); it has no truthiness totals *)
Definition summary_derived_default : coverage_summary :=
  mkSummary totals_default totals_default totals_default totals_default None.

(** coverage_summary.rs:79-87: the inherent [CoverageSummary::default()] *)
Definition summary_default : coverage_summary :=
  mkSummary totals_default totals_default totals_default totals_default (Some totals_default).

(** file_coverage.rs:318-327 [compute_simple_totals]; [count() as u32] is not truncated *)
Definition compute_simple_totals (lm : line_hit_map) : totals :=
  let total := N.of_nat (length lm) in
  let covered := N.of_nat (positive_hits (im_values lm)) in
  mkTotals total covered 0 (PValue (percent covered total)).

(** file_coverage.rs:332-335, body of the [for_each] *)
Definition branch_totals_step (m : ovf_mode) (acc : N * N) (hits : list N) : res (N * N) :=
  let* c := u32_add m (fst acc) (N.of_nat (positive_hits hits)) in
  let* t := u32_add m (snd acc) (N.of_nat (length hits)) in
  Ok (c, t).

(** file_coverage.rs:329-339 *)
Definition compute_branch_totals (m : ovf_mode) (bm : branch_hit_map) : res totals :=
  let* (c, t) := fold_res (branch_totals_step m) (0, 0) (im_values bm) in
  Ok (mkTotals t c 0 (PValue (percent c t))).

(** file_coverage.rs:361-376 *)
Definition to_summary (m : ovf_mode) (fc : file_coverage) : res coverage_summary :=
  let* lc := get_line_coverage fc in
  let line := compute_simple_totals lc in
  let function := compute_simple_totals (fc_f fc) in
  let statement := compute_simple_totals (fc_s fc) in
  let* branches := compute_branch_totals m (fc_b fc) in
  let* bt := match fc_b_t fc with
             | Some bt => let* t := compute_branch_totals m bt in Ok (Some t)
             | None => Ok None
             end in
  Ok (mkSummary line statement function branches bt).

(** coverage_summary.rs:91-94 (and the three analogous groups, 96-112, 121-127) *)
Definition totals_merge (m : ovf_mode) (a b : totals) : res totals :=
  let* t := u32_add m (t_total a) (t_total b) in
  let* c := u32_add m (t_covered a) (t_covered b) in
  let* s := u32_add m (t_skipped a) (t_skipped b) in
  Ok (mkTotals t c s (PValue (percent c t))).

(** coverage_summary.rs:90-131 *)
Definition summary_merge (m : ovf_mode) (self summary : coverage_summary) : res coverage_summary :=
  let* l := totals_merge m (cs_lines self) (cs_lines summary) in
  let* s := totals_merge m (cs_statements self) (cs_statements summary) in
  let* f := totals_merge m (cs_functions self) (cs_functions summary) in
  let* b := totals_merge m (cs_branches self) (cs_branches summary) in
  let* bt :=
    match cs_branches_true summary with
    | Some sbt =>
        let self_bt := match cs_branches_true self with Some v => v | None => totals_default end in
        let* t := totals_merge m self_bt sbt in Ok (Some t)
    | None => Ok (cs_branches_true self)
    end in
  Ok (mkSummary l s f b bt).

(** coverage_summary.rs:137-139 *)
Definition summary_is_empty (s : coverage_summary) : bool := t_total (cs_lines s) =? 0.

(** file_coverage.rs:341-359 *)
Definition reset_line_hits (m : line_hit_map) : line_hit_map := map (fun kv => (fst kv, 0)) m.
Definition reset_branch_hits (m : branch_hit_map) : branch_hit_map :=
  map (fun kv => (fst kv, map (fun _ => 0) (snd kv))) m.
Definition reset_hits (fc : file_coverage) : file_coverage :=
  mkFC (fc_all fc) (fc_path fc) (fc_statement_map fc) (fc_fn_map fc) (fc_branch_map fc)
    (reset_line_hits (fc_s fc)) (reset_line_hits (fc_f fc)) (reset_branch_hits (fc_b fc))
    (option_map reset_branch_hits (fc_b_t fc)) (fc_input_source_map fc).

(** ** Coverage maps: coverage_map.rs *)

(** coverage_map.rs:7-9 *)
Definition coverage_map := imap string file_coverage.

(** coverage_map.rs:69-75 *)
Definition add_coverage_for_file (m : ovf_mode) (cm : coverage_map) (fc : file_coverage)
  : res coverage_map :=
  match im_get (fc_path fc) cm with
  | Some value =>
      let* v := fc_merge m value fc in
      Ok (im_update (fc_path fc) (fun _ => v) cm)
  | None => Ok (im_insert (fc_path fc) fc cm)
  end.

(** coverage_map.rs:24-34 *)
Definition cm_from_iter (m : ovf_mode) (l : list file_coverage) : res coverage_map :=
  fold_res (add_coverage_for_file m) [] l.

(** coverage_map.rs:37-41 *)
Definition cm_merge (m : ovf_mode) (self other : coverage_map) : res coverage_map :=
  fold_res (add_coverage_for_file m) self (im_values other).

(** coverage_map.rs:45-55 *)
Definition cm_filter (p : file_coverage -> bool) (cm : coverage_map) : coverage_map :=
  fold_left (fun acc kv => if p (snd kv) then im_insert (fc_path (snd kv)) (snd kv) acc else acc)
    cm [].

(** coverage_map.rs:61-63 *)
Definition cm_get_files (cm : coverage_map) : list string := im_keys cm.

(** coverage_map.rs:65-67 *)
Definition cm_get_coverage_for_file (cm : coverage_map) (p : string) : option file_coverage :=
  im_get p cm.

(** coverage_map.rs:77-85 *)
Definition cm_get_coverage_summary (m : ovf_mode) (cm : coverage_map) : res coverage_summary :=
  fold_res (fun acc fc => let* s := to_summary m fc in summary_merge m acc s)
    summary_derived_default (im_values cm).

(** ** The repo's own unit tests, as sanity checks of the model *)

Definition test_base : file_coverage :=
  mkFC false "/path/to/file"
    [(0, range_new 1 1 1 100); (1, range_new 2 1 2 50); (2, range_new 2 51 2 100);
     (3, range_new 2 101 3 100)]
    [(0, mkFunc "foobar" range_default (range_new 1 1 1 50) 1)]
    [(0, mkBranch None BIf [range_new 2 1 2 20; range_new 2 50 2 100] (Some 2))]
    [(0, 0); (1, 0); (2, 0); (3, 0)] [(0, 0)] [(0, [0; 0])] None None.

Definition test_first : file_coverage :=
  mkFC false "/path/to/file" (fc_statement_map test_base) (fc_fn_map test_base)
    (fc_branch_map test_base) [(0, 1); (1, 0); (2, 0); (3, 0)] [(0, 1)] [(0, [1; 0])]
    (Some [(0, [1])]) None.
Definition test_second : file_coverage :=
  mkFC false "/path/to/file" (fc_statement_map test_base) (fc_fn_map test_base)
    (fc_branch_map test_base) [(0, 0); (1, 1); (2, 0); (3, 0)] [(0, 1)] [(0, [0; 2])]
    (Some [(0, [0; 2])]) None.

(** file_coverage.rs tests: should_able_to_merge_another_file and
    merges_another_file_coverage_tracks_logical_truthiness *)
Example test_merge :
  (let* r := fc_merge Debug test_first test_second in
   Ok (fc_s r, fc_f r, fc_b r, fc_b_t r)) =
  Ok ([(0, 1); (1, 1); (2, 0); (3, 0)], [(0, 2)], [(0, [1; 2])], Some [(0, [1; 2])]).
Proof. vm_compute. reflexivity. Qed.

Example test_merge_summary :
  (let* r := fc_merge Debug test_first test_second in
   let* s := to_summary Debug r in Ok (cs_statements s, cs_lines s, cs_functions s, cs_branches s)) =
  Ok (mkTotals 4 2 0 (PValue (f32_of_Z 50)), mkTotals 2 2 0 (PValue (f32_of_Z 100)),
      mkTotals 1 1 0 (PValue (f32_of_Z 100)), mkTotals 2 2 0 (PValue (f32_of_Z 100))).
Proof. vm_compute. reflexivity. Qed.

(** should_return_uncovered_lines *)
Example test_uncovered :
  get_uncovered_lines
    (mkFC false "/path/to/file"
       [(1, range_new 1 1 1 100); (2, range_new 1 101 1 200); (3, range_new 2 1 2 100)]
       [] [] [(1, 0); (2, 1); (3, 0)] [] [] None None) = Ok [2].
Proof. vm_compute. reflexivity. Qed.

(** should_return_branch_coverage_by_line *)
Example test_branch_by_line :
  get_branch_coverage_by_line
    (mkFC false "/path/to/file" [] []
       [(1, mkBranch None BIf [] (Some 1)); (2, mkBranch None BIf [] (Some 2))]
       [] [] [(1, [1; 0]); (2, [0; 0; 0; 1])] None None) =
  Ok [(1, mkCov 1 2 (f32_of_Z 50)); (2, mkCov 1 4 (f32_of_Z 25))].
Proof. vm_compute. reflexivity. Qed.
