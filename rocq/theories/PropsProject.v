(** Property theorems proved in [Project.v]; generated by tools/genprops.py. *)
From Coq Require Import NArith String List Bool Lia PeanoNat Permutation.
Import ListNotations.
From Verif Require Import Base IndexMap Decimal Oxide OxideSpec OxideMergeProofs OxideMerge OxideViews SourceCov SourceCovProofs
  Hints Ast Visitor VisitorRel VisitorEx Erase Counting CountingRoot Json CovJson DataObject Template Runtime Produced Report
  Sem SemShape SemErase SemVisit SemProps Account Slots Sites AccountVisit Accurate EndToEnd Runs.
From Verif Require Import Project.

Theorem C60_variable_read : forall evs gcv, valid evs -> NoDup (map file_key (loaded evs)) ->
  Forall (fun f => exists fc, output_of f fc) (loaded evs) ->
  exists st rs, Runtime.run evs rt0 = Some st /\ read_variable (rheap st) gcv = Some rs /\ NoDup (map fst rs) /\
    (forall p, In p (map fst rs) <-> used gcv p evs = true) /\
    (forall p r, In (p, r) rs -> exists i f, nth_error (loaded evs) i = Some f /\ file_key f = (gcv, p) /\
       forall fc, output_of f fc -> same_data r (after (done gcv p evs) fc)).
Proof. exact (@variable_read). Qed.
Print Assumptions C60_variable_read.

Theorem C60_project_map : forall m proj gcv,
  (forall p fc, im_get p proj = Some fc -> fc_path fc = p /\ OxideMerge.plain fc /\ unique_keys fc /\ zeroed fc) ->
  forall hs rss, Forall2 (process proj gcv) hs rss ->
  (forall p fc c v, im_get p proj = Some fc -> recorded (after (total gcv p hs) fc) c = Some v -> v < u32_mod) ->
  exists M, merge_maps m rss = Ok M /\ cm_ok M /\
    (forall p, In p (cm_get_files M) <-> ran_once gcv p hs = true) /\
    forall p R, cm_get_coverage_for_file M p = Some R -> exists fc, im_get p proj = Some fc /\
      same_rows R (after (total gcv p hs) fc) /\ OxideMerge.plain R /\ unique_keys R.
Proof. exact (@project_map). Qed.
Print Assumptions C60_project_map.

Theorem C60_project_tells_partial : forall m l gcv hs rss logs, NoDup (map p_path l) -> Forall modelled l ->
  Forall2 (process (project l) gcv) hs rss -> (forall P, In P l -> Forall2 (acted gcv P) hs (logs P)) ->
  (forall P ev, In P l -> N.of_nat (count_occ event_dec (concat (logs P)) ev) < u32_mod) ->
  exists M, merge_maps m rss = Ok M /\ cm_ok M /\
    (forall p, In p (cm_get_files M) <-> exists P, In P l /\ p_path P = p /\ ran_once gcv p hs = true) /\
    forall P R, In P l -> cm_get_coverage_for_file M (p_path P) = Some R ->
      OxideMerge.plain R /\ unique_keys R /\
      length (fc_s R) = length (fc_statement_map (p_record P)) /\ length (fc_f R) = length (fc_fn_map (p_record P)) /\
      length (concat (im_values (fc_b R))) = length (paths_of P) /\
      forall c, seen c = true -> slot_exists R c = true -> exists ev, tells (p_env P) (p_items P) (concat (logs P)) R c ev.
Proof. exact (@project_tells_partial). Qed.
Print Assumptions C60_project_tells_partial.

Theorem C60_project_report_partial : forall m l gcv hs rss logs, NoDup (map p_path l) -> Forall modelled l -> small l ->
  Forall2 (process (project l) gcv) hs rss -> (forall P, In P l -> Forall2 (acted gcv P) hs (logs P)) ->
  (forall P ev, In P l -> N.of_nat (count_occ event_dec (concat (logs P)) ev) < u32_mod) ->
  exists M s parts, merge_maps m rss = Ok M /\ cm_get_coverage_summary m M = Ok s /\
    map (fun x => p_path (r_prog x)) parts = cm_get_files M /\
    Permutation (map r_prog parts) (filter (fun P => ran_once gcv (p_path P) hs) l) /\
    Forall (part_of logs M) parts /\
    adds_up logs r_stmts parts (cs_statements s) /\ adds_up logs r_fns parts (cs_functions s) /\
    adds_up logs r_paths parts (cs_branches s).
Proof. exact (@project_report_partial). Qed.
Print Assumptions C60_project_report_partial.

Theorem C60_project_ex : forall tf cf tg cg th ch, instrument line_env 60 "f.js" None ex_count = Ok (tf, cf) ->
  instrument line_env 60 "g.js" None ex_count = Ok (tg, cg) -> instrument line_env 60 "h.js" None ex_count = Ok (th, ch) ->
  let F := count_program "f.js" tf cf in let G := count_program "g.js" tg cg in let l := [F; G; count_program "h.js" th ch] in
  let hs := [both (count_emitted F) (count_emitted G) (count_incs 9 F) (count_incs 1 G); one_file (count_emitted F) (count_incs 1 F)] in
  exists rss M s, Forall2 (process (project l) "__coverage__") hs rss /\ merge_maps Debug rss = Ok M /\
    cm_get_coverage_summary Debug M = Ok s /\ Permutation (cm_get_files M) ["f.js"; "g.js"] /\
    t_total (cs_statements s) = 20 /\ t_total (cs_functions s) = 4 /\ t_total (cs_branches s) = 12 /\
    (forall P R, In P l -> cm_get_coverage_for_file M (p_path P) = Some R ->
       forall c, seen c = true -> slot_exists R c = true -> exists ev, tells line_env (p_items P) (concat (count_logs P)) R c ev).
Proof. exact (@project_ex). Qed.
Print Assumptions C60_project_ex.

Theorem C60_project_numbers_ex :
  match instrument line_env 60 "f.js" None ex_count, instrument line_env 60 "g.js" None ex_count with
  | Ok (tf, cf), Ok (tg, cg) =>
      match merge_maps Debug [[count_after 9 tf cf; count_after 1 tg cg]; [count_after 1 tf cf]] with
      | Ok M => match cm_get_coverage_summary Debug M with
          | Ok s => (cm_get_files M, short (cs_statements s), short (cs_functions s), short (cs_branches s)) =
              (["f.js"; "g.js"], (20, 10), (4, 1), (12, 4))
          | _ => False
          end
      | _ => False
      end
  | _, _ => False
  end.
Proof. exact (@project_numbers_ex). Qed.
Print Assumptions C60_project_numbers_ex.

