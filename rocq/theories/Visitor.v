(** Model of the instrumenting visitors (packages/swc-coverage-instrument/src/macros,
    src/visitors).

    [visit n v t s] is [t.visit_mut_with(visitor)] for the visitor kind [v] in state [s],
    with recursion depth bounded by the fuel [n].  Handlers take the recursive call as a
    parameter [rec]. *)
From Coq Require Import NArith String List Bool Lia PeanoNat.
Import ListNotations.
From Verif Require Import Base IndexMap Oxide SourceCov Hints Ast.
Open Scope N_scope.

(** utils/node.rs:4-48 *)
Inductive nk :=
| NProgram | NModuleDecl | NStmt | NStmts | NExpr | NVarDeclarator | NExprStmt | NModuleItems
| NArrowExpr | NSetterProp | NGetterProp | NMethodProp | NBinExpr | NLogicalExpr | NCondExpr
| NLabeledStmt | NFnExpr | NFnDecl | NWithStmt | NSwitchCase | NSwitchStmt | NDoWhileStmt
| NWhileStmt | NForOfStmt | NForInStmt | NForStmt | NIfStmt | NVarDecl | NTryStmt | NThrowStmt
| NReturnStmt | NDebuggerStmt | NContinueStmt | NBreakStmt | NPrivateProp | NClassProp
| NClassDecl | NClassMethod | NExportDecl | NExportDefaultDecl | NBlockStmt | NAssignPat
| NTaggedTpl.

(** The visitor structs: coverage_visitor.rs:16, stmt_like_visitor.rs:11,
    switch_case_visitor.rs:15, logical_expr_visitor.rs:9 *)
Inductive vis := VCov | VStmt | VSwitch (branch : N) | VLogical (branch : N).

(** The mutable fields (create_instrumentation_visitor.rs:87-101).  [stack] is [nodes]
    with the top of the stack first. *)
Record st := mkSt {
  cov : source_cov;
  before : list node;
  stack : list nk;
  ign : option ignore_scope
}.

(** What the visitors read but never change. *)
Record env := mkEnv {
  e_comments : comments;
  e_word : N -> bool;            (* non-ASCII part of the regex class \w *)
  e_lookup : N -> N * N;         (* SourceMapper::lookup_char_pos *)
  e_report_logic : bool;         (* options.report_logic *)
  e_ignore_methods : list string (* options.ignore_class_methods *)
}.

Definition set_cov (c : source_cov) (s : st) := mkSt c (before s) (stack s) (ign s).
Definition set_ign (i : option ignore_scope) (s : st) := mkSt (cov s) (before s) (stack s) i.
Definition push (n : nk) (s : st) := mkSt (cov s) (before s) (n :: stack s) (ign s).
Definition pop (s : st) := mkSt (cov s) (before s) (tl (stack s)) (ign s).
Definition clear_before (s : st) := mkSt (cov s) [] (stack s) (ign s).

(** A fresh visitor of another type: [X::new(.., self.nodes.clone(), ignore, ..)] *)
Definition spawn (s : st) (i : option ignore_scope) : st := mkSt (cov s) [] (stack s) i.

Definition is_next (i : option ignore_scope) : bool :=
  match i with Some INext => true | _ => false end.

Section Visit.
Variable e : env.

Definition hint (sp : span) : option ignore_scope :=
  should_ignore (e_word e) (e_comments e) (Some sp).
Definition range_of (sp : span) : range := get_range_from_span (e_lookup e) sp.

(** create_instrumentation_visitor.rs:69-80: new state, old scope, current scope *)
Definition on_enter_with_span (sp : span) (s : st) : st * option ignore_scope * option ignore_scope :=
  let old := ign s in
  if is_next old then (s, old, old)
  else let i := hint sp in (set_ign i s, old, i).

Definition on_enter (n : nk) (sp : span) (s : st) := on_enter_with_span sp (push n s).

(** create_instrumentation_visitor.rs:82-85 *)
Definition on_exit (old : option ignore_scope) (s : st) : st := pop (set_ign old s).

(** instrumentation_counter_helper.rs:138-164 *)
Definition mark_prepend_stmt_counter (sp : span) (s : st) : st :=
  let (c, id) := new_statement (range_of sp) (cov s) in
  mkSt c (before s ++ [counter_stmt (CS id)]) (stack s) (ign s).

(** instrumentation_counter_helper.rs:9-19, 37-60 *)
Definition replace_expr_with_stmt_counter (x : node) (s : st) : node * st :=
  let (c, id) := new_statement (range_of (nspan x)) (cov s) in
  (paren_seq (CS id) x, set_cov c s).

(** instrumentation_counter_helper.rs:22-33, 37-60 *)
Definition replace_expr_with_branch_counter (x : node) (b : N) (s : st) : res (node * st) :=
  if negb (is_expr x) then Panic RMalformed else
  let* (c, i) := add_branch_path b (range_of (nspan x)) (cov s) in
  Ok (paren_seq (CB b i) x, set_cov c s).

(** visitors/finders.rs:6-95 *)
Definition has_hoisting (t : node) : bool :=
  occurs (fun k => match k with KFnExpr | KArrow | KClassExpr => true | _ => false end) t.
Definition has_block (t : node) : bool := occurs (fun k => match k with KBlock _ => true | _ => false end) t.
Definition has_stmt (t : node) : bool := occurs (fun k => match k with KStmt => true | _ => false end) t.
Definition has_expr (t : node) : bool := occurs (fun k => match k with KExpr => true | _ => false end) t.
Definition has_logical (t : node) : bool :=
  occurs (fun k => match k with KBin op => is_logical_op op | _ => false end) t.

Section Handlers.
(** [rec v t s] visits [t] with a visitor of kind [v] in state [s]. *)
Variable rec : vis -> node -> st -> res (node * st).

Fixpoint visit_list (v : vis) (ts : list node) (s : st) : res (list node * st) :=
  match ts with
  | [] => Ok ([], s)
  | t :: ts' =>
      let* (t', s1) := rec v t s in
      let* (ts'', s2) := visit_list v ts' s1 in
      Ok (t' :: ts'', s2)
  end.

(** [n.visit_mut_children_with(self)] *)
Definition visit_children (v : vis) (t : node) (s : st) : res (node * st) :=
  match t with
  | Node k sp cs => let* (cs', s') := visit_list v cs s in Ok (Node k sp cs', s')
  end.

(** instrumentation_stmt_counter_helper.rs:7-37.  [drain(..)] with [new_stmts]: the
    result replaces the list. *)
Fixpoint insert_stmts_counter (ss : list node) (s : st) : res (list node * st) :=
  match ss with
  | [] => Ok ([], s)
  | x :: ss' =>
      let* (new, s1) :=
        if is_injected_counter_stmt x then Ok ([x], s)
        else
          let '(s1, old, cur) := on_enter NStmt (nspan x) s in
          if is_next cur then Ok ([x], on_exit old s1)
          else
            let* (x', sv) := visit_children VStmt x (spawn s1 cur) in
            Ok (before sv ++ [x'], on_exit old (set_cov (cov sv) s1))%list
      in
      let* (rest, s2) := insert_stmts_counter ss' s1 in
      Ok (new ++ rest, s2)%list
  end.

(** instrumentation_counter_helper.rs:65-126; [x] is an [Expr] *)
Definition wrap_bin_expr_with_branch_counter (v : vis) (b : N) (x : node) (s : st)
  : res (node * st) :=
  let sp := nspan x in
  let should_ignore := hint sp in
  if negb (is_expr x) then Panic RMalformed
  else if is_next should_ignore then Ok (x, s)
  else if has_logical x then
    let* (x', sv) := visit_children (VLogical b) x (spawn s should_ignore) in
    Ok (x', set_cov (cov sv) s)
  else if e_report_logic e then
    let* (c, i) := add_branch_path b (range_of sp) (cov s) in
    Ok (E (mk KInjSeq [counter_expr (CB b i); increase_true_expr b i x]), set_cov c s)
  else
    let* (x', s1) := visit_children v x s in
    replace_expr_with_branch_counter x' b s1.

(** [nodes.get(len - n)] if [len >= n], else [nodes.get(0)] *)
Definition nodes_get (n : nat) (stk : list nk) : option nk :=
  if (n <=? length stk)%nat then nth_error stk (n - 1) else nth_error stk (length stk - 1).

(** [Expr::TaggedTpl] *)
Definition is_tagged_tpl (x : node) : bool :=
  match expr_view x with
  | Some (_, y) => match nkind y with KTaggedTpl => true | _ => false end
  | None => false
  end.

(** instrumentation_counter_helper.rs:238-313; [x] is an [Expr] *)
Definition cover_statement (v : vis) (x : node) (s : st) : res (node * st) :=
  let sp := nspan x in
  if negb (is_expr x) then Panic RMalformed
  else if is_tagged_tpl x then visit_children v x (mark_prepend_stmt_counter sp s)
  else
      if has_block x then Ok (x, mark_prepend_stmt_counter sp s)
      else
        let s1 := if has_stmt x then mark_prepend_stmt_counter sp s else s in
        match stack s1 with
        | [] => Panic RMalformed (* nodes.last().unwrap() *)
        | parent :: _ =>
            if has_hoisting x && match parent with NVarDeclarator => true | _ => false end then
              match nodes_get 3 (stack s1) with
              | Some _ =>
                  match nodes_get 4 (stack s1) with
                  | Some (NBlockStmt | NProgram) => Ok (x, mark_prepend_stmt_counter sp s1)
                  | _ => Ok (x, s1)
                  end
              | None => Ok (replace_expr_with_stmt_counter x s1)
              end
            else if has_expr x then Ok (replace_expr_with_stmt_counter x s1)
            else Ok (x, s1)
        end.

(** Prepend the function counter to a body: instrumentation_counter_helper.rs:190-203,
    instrumentation_visitor.rs:467-478 *)
Definition prepend_to_block (c : counter) (body : node) : option node :=
  match block_view body with
  | Some (i, bsp, ssp, ss) => Some (Node (KBlock i) bsp [Node KStmts ssp (counter_stmt c :: ss)])
  | None => None
  end.

(** instrumentation_counter_helper.rs:168-208; [ident] is the name and its span *)
Definition create_fn_instrumentation (ident : option (string * span)) (fn : node) (s : st)
  : res (node * st) :=
  match fn with
  | Node KFunction fsp [params; decorators; body; types] =>
      let sp := match ident with Some (_, isp) => isp | None => fsp end in
      let name := option_map fst ident in
      let body_span := if is_none body then fsp else nspan body in
      let (c, index) := new_function name (range_of sp) (range_of body_span) (cov s) in
      if is_none body then Panic RUnimplemented
      else
        let* body' := expect RMalformed (prepend_to_block (CF index) body) in
        Ok (Node KFunction fsp [params; decorators; body'; types], set_cov c s)
  | _ => Panic RMalformed
  end.

Definition is_ignored_method (name : string) : bool :=
  existsb (fun m => String.eqb m name) (e_ignore_methods e).

(** Handlers of the shape: on_enter; unless Next { mark? ; children }; on_exit *)
Definition enter_exit (n : nk) (sp : span) (s : st)
    (skipped : st -> res (node * st)) (body : option ignore_scope -> st -> res (node * st))
  : res (node * st) :=
  let '(s1, old, cur) := on_enter n sp s in
  let* (t', s2) := if is_next cur then skipped s1 else body cur s1 in
  Ok (t', on_exit old s2).

(** instrumentation_visitor.rs:1 *)
Definition DIRECTIVES : list string := ["use strict"; "use asm"; "use strong"]%string.

Definition is_directive_expr (x : node) : bool :=
  match expr_view x with
  | Some (_, Node (KStr v) _ _) => existsb (String.eqb v) DIRECTIVES
  | _ => false
  end.

(** instrumentation_visitor.rs:182-205 *)
Definition visit_expr_stmt (v : vis) (t : node) (s : st) : res (node * st) :=
  let '(s1, old, cur) := on_enter NExprStmt (nspan t) s in
  match nkids t with
  | [x] =>
      if is_directive_expr x then Ok (t, on_exit old s1)
      else
        let s2 := if is_next cur then s1
                  else if is_injected_counter_expr x then s1
                  else mark_prepend_stmt_counter (nspan t) s1 in
        let* (t', s3) := visit_children v t s2 in
        Ok (t', on_exit old s3)
  | _ => Panic RMalformed
  end.

(** 209-221, 297-308, 657-671, 675-688: children are visited in any case *)
Definition visit_marked (n : nk) (v : vis) (t : node) (s : st) : res (node * st) :=
  enter_exit n (nspan t) s
    (visit_children v t)
    (fun _ s1 => visit_children v t (mark_prepend_stmt_counter (nspan t) s1)).

(** 272-293, 909-919, 923-933: children are visited only when not ignored *)
Definition visit_marked_skip (n : nk) (v : vis) (t : node) (s : st) : res (node * st) :=
  enter_exit n (nspan t) s
    (fun s1 => Ok (t, s1))
    (fun _ s1 => visit_children v t (mark_prepend_stmt_counter (nspan t) s1)).

(** 11-21, 321-332, coverage_visitor.rs:224-261: no counter, children when not ignored *)
Definition visit_skip (n : nk) (sp : span) (v : vis) (t : node) (s : st) : res (node * st) :=
  enter_exit n sp s (fun s1 => Ok (t, s1)) (fun _ s1 => visit_children v t s1).

(** visit_mut_for_like.rs:4-35 *)
Definition to_block (body : node) : option node :=
  match stmt_view body with
  | Some (_, x) => if is_block x then Some body else Some (mk KStmt [mk (KBlock true) [mk KStmts [body]]])
  | None => None
  end.
Fixpoint block_last (cs : list node) : option (list node) :=
  match cs with
  | [] => None
  | [b] => option_map (fun b' => [b']) (to_block b)
  | c :: cs' => option_map (cons c) (block_last cs')
  end.
Definition visit_for_like (n : nk) (v : vis) (t : node) (s : st) : res (node * st) :=
  enter_exit n (nspan t) s
    (fun s1 => Ok (t, s1))
    (fun _ s1 =>
       let s2 := mark_prepend_stmt_counter (nspan t) s1 in
       let* cs := expect RMalformed (block_last (nkids t)) in
       visit_children v (Node (nkind t) (nspan t) cs) s2).

(** 225-268 *)
Definition visit_cond_expr (v : vis) (t : node) (s : st) : res (node * st) :=
  enter_exit NCondExpr (nspan t) s
    (visit_children v t)
    (fun _ s1 =>
       match nkids t with
       | [test; con; alt] =>
           let (c, branch) := new_branch CondExpr (range_of (nspan t)) false (cov s1) in
           let s2 := set_cov c s1 in
           let* (con', s3) :=
             if is_next (hint (nspan con)) then Ok (con, s2)
             else replace_expr_with_branch_counter con branch s2 in
           let* (alt', s4) :=
             if is_next (hint (nspan alt)) then Ok (alt, s3)
             else replace_expr_with_branch_counter alt branch s3 in
           visit_children v (Node (nkind t) (nspan t) [test; con'; alt']) s4
       | _ => Panic RMalformed
       end).

Definition ident_view (t : node) : option (string * span) :=
  match nkind t with KIdent name => Some (name, nspan t) | _ => None end.
(** [PropName::Ident] *)
Definition prop_ident_view (t : node) : option (string * span) :=
  match nkind t with KPropIdent name => Some (name, nspan t) | _ => None end.

(** 25-35 *)
Definition visit_fn_decl (v : vis) (t : node) (s : st) : res (node * st) :=
  match nkids t with
  | [id; fn] =>
      enter_exit NFnDecl (nspan fn) s
        (fun s1 => Ok (t, s1))
        (fun _ s1 =>
           let* ident := expect RMalformed (ident_view id) in
           let* (fn', s2) := create_fn_instrumentation (Some ident) fn s1 in
           visit_children v (Node (nkind t) (nspan t) [id; fn']) s2)
  | _ => Panic RMalformed
  end.

(** 152-178 *)
Definition visit_fn_expr (v : vis) (t : node) (s : st) : res (node * st) :=
  match nkids t with
  | [id; fn] =>
      enter_exit NFnExpr (nspan fn) s
        (fun s1 => Ok (t, s1))
        (fun _ s1 =>
           let ident := ident_view id in
           let ignored := match ident with Some (name, _) => is_ignored_method name | None => false end in
           if ignored then Ok (t, s1)
           else
             let* (fn', s2) := create_fn_instrumentation ident fn s1 in
             visit_children v (Node (nkind t) (nspan t) [id; fn']) s2)
  | _ => Panic RMalformed
  end.

(** 371-396 *)
Definition visit_class_method (v : vis) (t : node) (s : st) : res (node * st) :=
  enter_exit NClassMethod (nspan t) s
    (fun s1 => Ok (t, s1))
    (fun _ s1 =>
       match nkids t with
       | [key; fn] =>
           match prop_ident_view key with
           | Some (name, isp) =>
               if is_ignored_method name then Ok (t, s1)
               else
                 let* (fn', s2) := create_fn_instrumentation (Some (name, isp)) fn s1 in
                 visit_children v (Node (nkind t) (nspan t) [key; fn']) s2
           | None => Ok (t, s1)
           end
       | _ => Panic RMalformed
       end).

(** 400-432 *)
Definition visit_method_prop (v : vis) (t : node) (s : st) : res (node * st) :=
  match nkids t with
  | [key; fn] =>
      enter_exit NMethodProp (nspan fn) s
        (fun s1 => Ok (t, s1))
        (fun _ s1 =>
           match prop_ident_view key with
           | Some (name, isp) =>
               if is_ignored_method name then Ok (t, s1)
               else
                 let* (fn', s2) := create_fn_instrumentation (Some (name, isp)) fn s1 in
                 visit_children v (Node (nkind t) (nspan t) [key; fn']) s2
           | None =>
               let* (fn', s2) := create_fn_instrumentation (Some ("anonymous"%string, dummy_span)) fn s1 in
               visit_children v (Node (nkind t) (nspan t) [key; fn']) s2
           end)
  | _ => Panic RMalformed
  end.

(** 443-514 / 529-600: key first, body last *)
Fixpoint map_last (f : node -> res (node * st)) (cs : list node) : res (list node * st) :=
  match cs with
  | [] => Panic RMalformed
  | [b] => let* (b', s) := f b in Ok ([b'], s)
  | c :: cs' => let* (cs'', s) := map_last f cs' in Ok (c :: cs'', s)
  end.
Definition accessor_body (name : string) (sp : span) (s : st) (body : node) : res (node * st) :=
  if is_none body then Ok (body, s)
  else
    let (c, index) := new_function (Some name) (range_of sp) (range_of (nspan body)) (cov s) in
    let* body' := expect RMalformed (prepend_to_block (CF index) body) in
    Ok (body', set_cov c s).
Definition visit_accessor (n : nk) (v : vis) (t : node) (s : st) : res (node * st) :=
  enter_exit n (nspan t) s
    (fun s1 => Ok (t, s1))
    (fun _ s1 =>
       let go name sp :=
         let* (cs, s2) := map_last (accessor_body name sp s1) (nkids t) in
         visit_children v (Node (nkind t) (nspan t) cs) s2 in
       match nkids t with
       | key :: _ =>
           match prop_ident_view key with
           | Some (name, isp) => if is_ignored_method name then Ok (t, s1) else go name isp
           | None => go "anonymous"%string (nspan t)
           end
       | [] => Panic RMalformed
       end).

(** 39-123 *)
Definition visit_arrow_expr (v : vis) (t : node) (s : st) : res (node * st) :=
  enter_exit NArrowExpr (nspan t) s
    (fun s1 => Ok (t, s1))
    (fun _ s1 =>
       match nkids t with
       | [params; body; types] =>
           let r := range_of (nspan t) in
           let (c, index) := new_function None r (range_of (nspan body)) (cov s1) in
           let s2 := set_cov c s1 in
           if is_expr body then
             let sp := nspan body in
             let ret := Node KStmt sp [Node KReturn sp [body]] in
             let* (ss', s3) := insert_stmts_counter [counter_stmt (CF index); ret] s2 in
             Ok (Node (nkind t) (nspan t) [params; mk (KBlock true) [mk KStmts ss']; types], s3)
           else
             let* (bi, bsp, ssp, ss) := expect RMalformed (block_view body) in
             let* (ss', s3) := insert_stmts_counter ss s2 in
             Ok (Node (nkind t) (nspan t)
                   [params; Node (KBlock bi) bsp [Node KStmts ssp (counter_stmt (CF index) :: ss')]; types], s3)
       | _ => Panic RMalformed
       end).

(** 336-349, 353-367, 607-623: [value] is child 1 *)
Definition visit_initialized (n : nk) (v : vis) (t : node) (s : st) : res (node * st) :=
  enter_exit n (nspan t) s
    (fun s1 => Ok (t, s1))
    (fun _ s1 =>
       match nkids t with
       | name :: value :: rest =>
           let* (value', s2) :=
             if is_none value then Ok (value, s1) else cover_statement v value s1 in
           visit_children v (Node (nkind t) (nspan t) (name :: value' :: rest)) s2
       | _ => Panic RMalformed
       end).

(** 692-725 *)
Definition visit_switch_stmt (t : node) (s : st) : res (node * st) :=
  enter_exit NSwitchStmt (nspan t) s
    (fun s1 => Ok (t, s1))
    (fun cur s1 =>
       let s2 := mark_prepend_stmt_counter (nspan t) s1 in
       let (c, branch) := new_branch BSwitch (range_of (nspan t)) false (cov s2) in
       let s3 := set_cov c s2 in
       let* (t', sv) := visit_children (VSwitch branch) t (spawn s3 cur) in
       Ok (t', set_cov (cov sv) s3)).

(** switch_case_visitor.rs:29-59 *)
Definition visit_switch_case (branch : N) (t : node) (s : st) : res (node * st) :=
  enter_exit NSwitchCase (nspan t) s
    (fun s1 => Ok (t, s1))
    (fun _ s1 =>
       let* (c, i) := add_branch_path branch (range_of (nspan t)) (cov s1) in
       let* (t', s2) := visit_children (VSwitch branch) t (set_cov c s1) in
       match nkids t' with
       | [test; cons_] =>
           let* (ssp, ss) := expect RMalformed (stmts_view cons_) in
           Ok (Node (nkind t') (nspan t') [test; Node KStmts ssp (counter_stmt (CB branch i) :: ss)], s2)
       | _ => Panic RMalformed
       end).

(** 747-796 [wrap_with_counter]; [x] is a [Stmt].  (The span of a [Stmt] is that of its
    variant, so rebuilding [Stmt::Block] keeps it.) *)
Definition wrap_with_counter (branch : N) (r : range) (cur : option ignore_scope) (x : node) (s : st)
  : res (node * st) :=
  let* (c, i) := add_branch_path branch r (cov s) in
  let s1 := set_cov c s in
  let ctr := counter_stmt (CB branch i) in
  let* (xsp, y) := expect RMalformed (stmt_view x) in
  if is_block y then
    let* (bi, bsp, ssp, ss) := expect RMalformed (block_view y) in
    let* (ss', s2) := insert_stmts_counter ss s1 in
    Ok (Node KStmt xsp [Node (KBlock bi) bsp [Node KStmts ssp (ctr :: ss')]], s2)
  else
    let* (x', sv) := rec VStmt x (spawn s1 cur) in
    Ok (mk KStmt [mk (KBlock true) [mk KStmts ([ctr] ++ before sv ++ [x'])]], set_cov (cov sv) s1).

(** 729-828 *)
Definition visit_if_stmt (v : vis) (t : node) (s : st) : res (node * st) :=
  enter_exit NIfStmt (nspan t) s
    (fun s1 => Ok (t, s1))
    (fun cur s1 =>
       match nkids t with
       | [test; con; alt] =>
           let s2 := mark_prepend_stmt_counter (nspan t) s1 in
           let r := range_of (nspan t) in
           let (c, branch) := new_branch BIf r false (cov s2) in
           let s3 := set_cov c s2 in
           let* (con', s4) :=
             match cur with
             | Some IIf => Ok (con, s3)
             | _ => wrap_with_counter branch r cur con s3
             end in
           let* (alt', s5) :=
             match cur with
             | Some IElse => Ok (alt, s4)
             | _ =>
                 wrap_with_counter branch r cur
                   (if is_absent alt then mk KStmt [mk (KBlock true) [mk KStmts []]] else alt) s4
             end in
           let* (test', s6) := rec v test s5 in
           Ok (Node (nkind t) (nspan t) [test'; con'; alt'], s6)
       | _ => Panic RMalformed
       end).

(** 832-882 and logical_expr_visitor.rs:26-63.  [branch_of] gives the branch to use: a
    new one for the instrumenting visitors, the inherited one for [LogicalExprVisitor].
    Note that the logical case leaves without [on_exit]. *)
Definition visit_bin_expr (v : vis) (op : binop) (branch_of : st -> st * N) (t : node) (s : st)
  : res (node * st) :=
  let '(s1, old, cur) := on_enter_with_span (nspan t) s in
  if is_next cur then
    let* (t', s2) := visit_children v t (push NBinExpr s1) in
    Ok (t', on_exit old s2)
  else if is_logical_op op then
    match nkids t with
    | [l; r] =>
        let (s2, branch) := branch_of (push NLogicalExpr s1) in
        let* (l', s3) := wrap_bin_expr_with_branch_counter v branch l s2 in
        let* (r', s4) := wrap_bin_expr_with_branch_counter v branch r s3 in
        Ok (Node (nkind t) (nspan t) [l'; r'], s4)
    | _ => Panic RMalformed
    end
  else
    let* (t', s2) := visit_children v t (push NBinExpr s1) in
    Ok (t', on_exit old s2).

Definition new_logical_branch (sp : span) (s : st) : st * N :=
  let (c, b) := new_branch BinaryExpr (range_of sp) (e_report_logic e) (cov s) in
  (set_cov c s, b).

(** 886-905 *)
Definition visit_assign_pat (v : vis) (t : node) (s : st) : res (node * st) :=
  enter_exit NAssignPat (nspan t) s
    (fun s1 => Ok (t, s1))
    (fun _ s1 =>
       match nkids t with
       | [l; r] =>
           let (c, branch) := new_branch DefaultArg (range_of (nspan t)) false (cov s1) in
           let* (r', s2) := wrap_bin_expr_with_branch_counter v branch r (set_cov c s1) in
           Ok (Node (nkind t) (nspan t) [l; r'], s2)
       | _ => Panic RMalformed
       end).

(** 937-970 *)
Definition visit_with_stmt (v : vis) (t : node) (s : st) : res (node * st) :=
  enter_exit NWithStmt (nspan t) s
    (fun s1 => Ok (t, s1))
    (fun cur s1 =>
       let s2 := mark_prepend_stmt_counter (nspan t) s1 in
       match nkids t with
       | [obj; body] =>
           let* (wsp, y) := expect RMalformed (stmt_view body) in
           if is_block y then
             let* (bi, bsp, ssp, ss) := expect RMalformed (block_view y) in
             let* (ss', s3) := insert_stmts_counter ss s2 in
             Ok (Node (nkind t) (nspan t)
                   [obj; Node KStmt wsp [Node (KBlock bi) bsp [Node KStmts ssp ss']]], s3)
           else
             let* (body', sv) := rec VStmt body (spawn s2 cur) in
             Ok (Node (nkind t) (nspan t)
                   [obj; mk KStmt [mk (KBlock true) [mk KStmts (before sv ++ [body'])]]], set_cov (cov sv) s2)
       | _ => Panic RMalformed
       end).

(** 142-148 *)
Definition visit_stmts (t : node) (s : st) : res (node * st) :=
  let* (ss', s1) := insert_stmts_counter (nkids t) (push NStmts s) in
  Ok (Node (nkind t) (nspan t) ss', pop s1).

(** swc: [Stmt::can_precede_directive], an expression statement that is a string literal *)
Definition directive_continue (item : node) : bool :=
  match expr_stmt_view item with
  | Some x =>
      match expr_view x with
      | Some (_, y) => match nkind y with KStr _ => true | _ => false end
      | None => false
      end
  | None => false
  end.

(** coverage_visitor.rs:169-175 *)
Definition export_const_span (item : node) : option span :=
  match item with
  | Node KModuleDecl _ [Node KExportDecl esp [d]] =>
      match nkind d with KVarDecl VConst => Some esp | _ => None end
  | _ => None
  end.

(** coverage_visitor.rs:150-182 *)
Fixpoint visit_items (items : list node) (s : st) : res (list node * st) :=
  match items with
  | [] => Ok ([], s)
  | item :: items' =>
      let* (new, s1) :=
        if directive_continue item then Ok ([item], s)
        else
          let n := match nkind item with KModuleDecl => NModuleDecl | _ => NStmt end in
          let '(s1, old, _) := on_enter n (nspan item) s in
          let s2 := match export_const_span item with
                    | Some esp => mark_prepend_stmt_counter esp s1
                    | None => s1
                    end in
          let* (item', s3) := visit_children VCov item s2 in
          Ok (before s3 ++ [item'], on_exit old (clear_before s3))%list
      in
      let* (rest, s2) := visit_items items' s1 in
      Ok (new ++ rest, s2)%list
  end.

(** coverage_visitor.rs:54-107 *)
Definition get_coverage_templates (s : st) : node * node * st :=
  let c := freeze (cov s) in
  (mk KStmt [mk (KTemplateFn (sc_fc c)) []], mk KStmt [mk KTemplateCall []], set_cov c s).

(** coverage_visitor.rs:129-199 *)
Definition visit_module_items (t : node) (s : st) : res (node * st) :=
  let root_exists := match rev (stack s) with NProgram :: _ => true | _ => false end in
  let s0 := if root_exists then s
            else mkSt (cov s) (before s) (stack s ++ [NProgram]) (ign s) in
  let* (items, s1) := visit_items (nkids t) s0 in
  let '(tpl, call, s2) := get_coverage_templates s1 in
  let items' := match items with
                | [] => [tpl; call]
                | i :: is => i :: tpl :: call :: is
                end in
  Ok (Node (nkind t) (nspan t) items', if root_exists then s2 else pop s2).

(** coverage_visitor.rs:207-213 *)
Fixpoint visit_script_items (items : list node) (s : st) : res (list node * st) :=
  match items with
  | [] => Ok ([], s)
  | item :: items' =>
      let* (item', s1) := visit_children VCov item s in
      let* (rest, s2) := visit_script_items items' (clear_before s1) in
      Ok (before s1 ++ item' :: rest, s2)%list
  end.

(** coverage_visitor.rs:202-220 *)
Definition visit_script (t : node) (s : st) : res (node * st) :=
  match nkids t with
  | [b] =>
      let* (ssp, body) := expect RMalformed (stmts_view b) in
      let* (body', s1) := visit_script_items body s in
      let '(tpl, call, s2) := get_coverage_templates s1 in
      Ok (Node (nkind t) (nspan t) [Node KStmts ssp (tpl :: call :: body')], s2)
  | _ => Panic RMalformed
  end.

(** The hooks of [LogicalExprVisitor]: logical_expr_visitor.rs:17-64 *)
Definition visit_logical (b : N) (t : node) (s : st) : res (node * st) :=
  match nkind t with
  | KExpr =>
      let '(s1, old, _) := on_enter NExpr (nspan t) s in
      let* (t', s2) := visit_children (VLogical b) t s1 in
      Ok (t', on_exit old s2)
  | KBin op => visit_bin_expr (VLogical b) op (fun s => (s, b)) t s
  | _ => visit_children (VLogical b) t s
  end.

(** The hooks of the instrumenting visitors *)
Definition visit_instr (v : vis) (t : node) (s : st) : res (node * st) :=
  match nkind t with
  | KTs => Ok (t, s) (* noop_visit_mut_type!() *)
  | KBlock _ => visit_skip NBlockStmt (nspan t) v t s
  | KStmts => visit_stmts t s
  | KFnDecl => visit_fn_decl v t s
  | KFnExpr => visit_fn_expr v t s
  | KArrow => visit_arrow_expr v t s
  | KExprStmt => visit_expr_stmt v t s
  | KBreak => visit_marked NBreakStmt v t s
  | KContinue => visit_marked NContinueStmt v t s
  | KReturn => visit_marked NReturnStmt v t s
  | KLabeled => visit_marked NLabeledStmt v t s
  | KTaggedTpl => visit_marked_skip NTaggedTpl v t s
  | KTry => visit_marked_skip NTryStmt v t s
  | KThrow => visit_marked_skip NThrowStmt v t s
  | KCond => visit_cond_expr v t s
  | KVarDecl _ =>
      (* 312-317: children are visited in any case *)
      enter_exit NVarDecl (nspan t) s (visit_children v t) (fun _ => visit_children v t)
  | KVarDeclarator => visit_initialized NVarDeclarator v t s
  | KClassProp => visit_initialized NClassProp v t s
  | KPrivateProp => visit_initialized NPrivateProp v t s
  | KClassDecl =>
      match nkids t with
      | [_; c] => visit_skip NClassDecl (nspan c) v t s
      | _ => Panic RMalformed
      end
  | KClassMethod => visit_class_method v t s
  | KMethodProp => visit_method_prop v t s
  | KGetter => visit_accessor NGetterProp v t s
  | KSetter => visit_accessor NSetterProp v t s
  | KFor => visit_for_like NForStmt v t s
  | KForIn => visit_for_like NForInStmt v t s
  | KForOf => visit_for_like NForOfStmt v t s
  | KWhile => visit_for_like NWhileStmt v t s
  | KDoWhile => visit_for_like NDoWhileStmt v t s
  | KSwitch => visit_switch_stmt t s
  | KIf => visit_if_stmt v t s
  | KWith => visit_with_stmt v t s
  | KBin op => visit_bin_expr v op (new_logical_branch (nspan t)) t s
  | KAssignPat => visit_assign_pat v t s
  | KSwitchCase =>
      match v with VSwitch b => visit_switch_case b t s | _ => visit_children v t s end
  | KModuleItems => match v with VCov => visit_module_items t s | _ => visit_children v t s end
  | KScript => match v with VCov => visit_script t s | _ => visit_children v t s end
  | KExportDefaultDecl =>
      match v with VCov => visit_skip NExportDefaultDecl (nspan t) v t s | _ => visit_children v t s end
  | KExportDecl =>
      match v with VCov => visit_skip NExportDecl (nspan t) v t s | _ => visit_children v t s end
  | KDebugger =>
      match v with VCov => visit_skip NDebuggerStmt (nspan t) v t s | _ => visit_children v t s end
  | _ => visit_children v t s
  end.

Definition visit_body (v : vis) (t : node) (s : st) : res (node * st) :=
  match v with
  | VLogical b => visit_logical b t s
  | _ => visit_instr v t s
  end.
End Handlers.

Fixpoint visit (n : nat) (v : vis) (t : node) (s : st) : res (node * st) :=
  match n with
  | O => OutOfFuel
  | S n' => visit_body (visit n') v t s
  end.

(** coverage_visitor.rs:20-41: the initial visitor state *)
Definition init_state (path : string) (input_source_map : option source_map) : st :=
  mkSt (set_input_source_map input_source_map (sc_new path (e_report_logic e))) [] [] None.

(** coverage_visitor.rs:114-126 [visit_mut_program]; [t] is the module or script *)
Definition visit_program (n : nat) (t : node) (s : st) : res (node * st) :=
  let s1 := push NProgram s in
  if should_ignore_file (e_word e) (e_comments e) (nspan t) then Ok (t, s1)
  else
    let* (t', s2) := visit n VCov t s1 in
    Ok (t', pop s2).

(** Instrument one program from scratch. *)
Definition instrument (n : nat) (path : string) (ism : option source_map) (t : node)
  : res (node * source_cov) :=
  let* (t', s) := visit_program n t (init_state path ism) in
  Ok (t', cov s).
End Visit.
