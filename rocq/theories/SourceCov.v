(** Model of packages/swc-coverage-instrument/src/source_coverage/mod.rs: the table
    builder the instrumenter registers its counters with. *)
From Coq Require Import NArith String List Bool Lia PeanoNat.
Import ListNotations.
From Verif Require Import Base IndexMap Decimal Oxide.
Open Scope N_scope.

(** mod.rs:3-8, 16-19, 32-36: [SourceCoverage], with [meta.last] flattened.
    Simplification: the u32 ids are unbounded (the real [+= 1] overflows after 2^32
    registrations in one file). *)
Record source_cov := mkSC { sc_fc : file_coverage; sc_s : N; sc_f : N; sc_b : N }.

(** mod.rs:39-44 *)
Definition sc_new (path : string) (report_logic : bool) : source_cov :=
  mkSC (fc_empty path report_logic) 0 0 0.

Definition set_stmts (fc : file_coverage) sm s : file_coverage :=
  mkFC (fc_all fc) (fc_path fc) sm (fc_fn_map fc) (fc_branch_map fc) s (fc_f fc)
       (fc_b fc) (fc_b_t fc) (fc_input_source_map fc).
Definition set_fns (fc : file_coverage) fm f : file_coverage :=
  mkFC (fc_all fc) (fc_path fc) (fc_statement_map fc) fm (fc_branch_map fc) (fc_s fc) f
       (fc_b fc) (fc_b_t fc) (fc_input_source_map fc).
Definition set_branches (fc : file_coverage) bm b bt : file_coverage :=
  mkFC (fc_all fc) (fc_path fc) (fc_statement_map fc) (fc_fn_map fc) bm (fc_s fc) (fc_f fc)
       b bt (fc_input_source_map fc).

(** mod.rs:52-58 *)
Definition new_statement (loc : range) (sc : source_cov) : source_cov * N :=
  let s := sc_s sc in
  let fc := sc_fc sc in
  (mkSC (set_stmts fc (im_insert s loc (fc_statement_map fc)) (im_insert s 0 (fc_s fc)))
        (s + 1) (sc_f sc) (sc_b sc), s).

(** mod.rs:62-66 *)
Definition fn_name_or_anonymous (name : option string) (f : N) : string :=
  match name with
  | Some n => n
  | None => ("(anonymous_" ++ dec f ++ ")")%string
  end.

(** mod.rs:60-82 *)
Definition new_function (name : option string) (decl loc : range) (sc : source_cov)
  : source_cov * N :=
  let f := sc_f sc in
  let fc := sc_fc sc in
  let fn := mkFunc (fn_name_or_anonymous name f) decl loc (line (rstart loc)) in
  (mkSC (set_fns fc (im_insert f fn (fc_fn_map fc)) (im_insert f 0 (fc_f fc)))
        (sc_s sc) (f + 1) (sc_b sc), f).

(** mod.rs:108-129 *)
Definition maybe_new_branch_true (t : branch_type) (name : N) (is_report_logic : bool)
    (bt : option branch_hit_map) : option branch_hit_map :=
  if is_report_logic then
    match t with
    | BinaryExpr => Some (im_insert name [] (match bt with Some m => m | None => [] end))
    | _ => bt
    end
  else bt.

(** mod.rs:84-106 *)
Definition new_branch (t : branch_type) (loc : range) (is_report_logic : bool)
    (sc : source_cov) : source_cov * N :=
  let b := sc_b sc in
  let fc := sc_fc sc in
  (mkSC (set_branches fc
           (im_insert b (mkBranch (Some loc) t [] (Some (line (rstart loc)))) (fc_branch_map fc))
           (im_insert b [] (fc_b fc))
           (maybe_new_branch_true t b is_report_logic (fc_b_t fc)))
        (sc_s sc) (sc_f sc) (b + 1), b).

(** mod.rs:157-164 *)
Definition maybe_add_branch_true (name : N) (bt : option branch_hit_map)
  : option branch_hit_map :=
  match bt with
  | Some m => Some (im_update name (fun c => c ++ [0])%list m)
  | None => None
  end.

Definition push_location (r : range) (b : branch) : branch :=
  mkBranch (b_loc b) (b_type b) (b_locations b ++ [r]) (b_line b).

(** mod.rs:131-155 *)
Definition add_branch_path (name : N) (location : range) (sc : source_cov)
  : res (source_cov * N) :=
  let fc := sc_fc sc in
  let* _ := expect RInvalidBranch (im_get name (fc_branch_map fc)) in
  let* _ := expect RInvalidBranch (im_get name (fc_b fc)) in
  let b := im_update name (fun c => c ++ [0])%list (fc_b fc) in
  let* counts := expect RInvalidBranch (im_get name b) in
  Ok (mkSC (set_branches fc (im_update name (push_location location) (fc_branch_map fc)) b
              (maybe_add_branch_true name (fc_b_t fc)))
           (sc_s sc) (sc_f sc) (sc_b sc),
      N.of_nat (length counts - 1)).

(** mod.rs:166-168 *)
Definition set_input_source_map (sm : option source_map) (sc : source_cov) : source_cov :=
  let fc := sc_fc sc in
  mkSC (mkFC (fc_all fc) (fc_path fc) (fc_statement_map fc) (fc_fn_map fc) (fc_branch_map fc)
             (fc_s fc) (fc_f fc) (fc_b fc) (fc_b_t fc) sm)
       (sc_s sc) (sc_f sc) (sc_b sc).

Definition has_paths (b : branch) : bool :=
  match b_locations b with [] => false | _ => true end.

(** mod.rs:176-186: the side effects of the [retain] closure, in visiting order *)
Definition prune {V} (bm : branch_map) (m : imap N V) : imap N V :=
  fold_left (fun m kb => if has_paths (snd kb) then m else im_swap_remove (fst kb) m) bm m.

(** mod.rs:170-187 *)
Definition freeze (sc : source_cov) : source_cov :=
  let fc := sc_fc sc in
  let bm := fc_branch_map fc in
  mkSC (set_branches fc (im_retain (fun _ b => has_paths b) bm) (prune bm (fc_b fc))
          (option_map (prune bm) (fc_b_t fc)))
       (sc_s sc) (sc_f sc) (sc_b sc).
