(** What gets counted: the tables list exactly the statements, functions and branches of the
    source text that the hints do not exclude, in a fixed order (C45). *)
From Coq Require Import NArith String List Bool Lia PeanoNat.
Import ListNotations.
From Verif Require Import Base IndexMap Decimal Oxide SourceCov SourceCovProofs Hints Ast Visitor VisitorRel
  VisitorEx Erase Counting CountingRoot Suppress Influence.
Open Scope N_scope.

(** ** Specification *)

(** Pieces of source text, described without reference to the model of the visitors *)
Fixpoint with_kind (p : kind -> bool) (t : node) : bool :=
  match t with Node k _ cs => p k || existsb (with_kind p) cs end.
Definition short_circuit (op : binop) : bool :=
  match op with OpOr | OpAnd | OpNullish => true | OpOther _ => false end.
Definition with_logical : node -> bool :=
  with_kind (fun k => match k with KBin op => short_circuit op | _ => false end).
Definition with_function : node -> bool :=
  with_kind (fun k => match k with KFnExpr | KArrow | KClassExpr => true | _ => false end).
Definition with_block : node -> bool := with_kind (fun k => match k with KBlock _ => true | _ => false end).
Definition with_stmt : node -> bool := with_kind (fun k => match k with KStmt => true | _ => false end).
(** The expression of an [Expr] *)
Definition expression (x : node) : option kind :=
  match x with Node KExpr _ [y] => Some (nkind y) | _ => None end.
Definition tagged (x : node) : bool := match expression x with Some KTaggedTpl => true | _ => false end.
Definition own_counter (x : node) : bool :=
  match expression x with Some (KCounter (CS _ | CF _)) => true | _ => false end.
Definition directive (x : node) : bool :=
  match expression x with
  | Some (KStr v) => existsb (String.eqb v) ["use strict"; "use asm"; "use strong"]%string
  | _ => false
  end.
(** A statement that is just a string *)
Definition string_item (x : node) : bool :=
  match x with
  | Node KStmt _ [Node KExprStmt _ [y]] => match expression y with Some (KStr _) => true | _ => false end
  | _ => false
  end.
(** [export const] *)
Definition exported_consts (x : node) : option span :=
  match x with
  | Node KModuleDecl _ [Node KExportDecl sp [d]] => match nkind d with KVarDecl VConst => Some sp | _ => None end
  | _ => None
  end.

(** An entry of the tables: a statement; a function with its name, if any, the place of its
    declaration and of its body; a branching construct with its paths *)
Inductive reg :=
| RStmt (sp : span)
| RFn (name : option string) (decl loc : span)
| RBranch (t : branch_type) (sp : span) (paths : list span).

Section Spec.
Variable H : span -> option ignore_scope.  (* the hint before a place of the source text *)
Variable rl : bool.                        (* reportLogic *)
Variable M : list string.                  (* ignoreClassMethods *)
Definition skipped_name (name : string) : bool := existsb (fun m => String.eqb m name) M.
Definition next (sp : span) : bool := match H sp with Some INext => true | _ => false end.

(** Where the hint of a node stands, for the nodes that can have one *)
Definition hint_place (k : kind) (sp : span) (cs : list node) : option span :=
  match k with
  | KFnDecl | KFnExpr | KMethodProp | KClassDecl => match cs with [_; x] => Some (nspan x) | _ => None end
  | KBlock _ | KArrow | KExprStmt | KBreak | KContinue | KReturn | KLabeled | KTaggedTpl | KTry
  | KThrow | KCond | KVarDecl _ | KVarDeclarator | KClassProp | KPrivateProp | KClassMethod
  | KGetter | KSetter | KFor | KForIn | KForOf | KWhile | KDoWhile | KSwitch | KSwitchCase | KIf
  | KWith | KBin _ | KAssignPat => Some sp
  | _ => None
  end.
Definition ignored (k : kind) (sp : span) (cs : list node) : bool :=
  match hint_place k sp cs with Some p => next p | None => false end.

Definition is_case (t : node) : bool := match nkind t with KSwitchCase => true | _ => false end.
Definition caselist (t : node) : bool := match nkind t with KList => existsb is_case (nkids t) | _ => false end.
(** The cases of a switch statement *)
Definition cpath (t : node) : list span := if is_case t && negb (next (nspan t)) then [nspan t] else [].
Definition cpaths (t : node) : list span :=
  match nkind t with KList => flat_map cpath (nkids t) | _ => cpath t end.

(** The operands of a logical expression: operands that contain further logical expressions,
    however deep, are replaced by the operands of these. *)
Fixpoint lpaths (t : node) : list span :=
  match t with
  | Node k sp cs =>
      match k with
      | KExpr => if next sp then [] else flat_map lpaths cs
      | KBin op =>
          if next sp then []
          else if short_circuit op then
            flat_map (fun x => match x with
                               | Node _ xs xc =>
                                   if next xs then [] else if with_logical x then flat_map lpaths xc else [xs]
                               end) cs
          else flat_map lpaths cs
      | _ => flat_map lpaths cs
      end
  end.
Definition operand (x : node) : list span :=
  if next (nspan x) then [] else if with_logical x then flat_map lpaths (nkids x) else [nspan x].
(** Operands with further logical expressions, and with reportLogic all operands, are not
    instrumented further. *)
Definition closed_operand (x : node) : bool := next (nspan x) || with_logical x || rl.

Definition fn_reg (name : option string) (decl : span) (fn : node) : list reg :=
  match nkids fn with [_; _; b; _] => [RFn name decl (nspan b)] | _ => [] end.

(** The entries of a loop: the body is the last child. *)
Definition loop_regs (f : node -> list reg) : list node -> list reg :=
  fix go (cs : list node) : list reg :=
    match cs with
    | [] => []
    | c :: cs' =>
        match cs' with
        | [] =>
            match c with
            | Node _ bs bc =>
                if existsb is_block bc then flat_map f bc else if next bs then [] else flat_map f bc
            end
        | _ => f c ++ go cs'
        end
    end.
(** The arm of a conditional statement; the hint of a block is not consulted. *)
Definition arm_regs (f : node -> list reg) (x : node) : list reg :=
  match x with
  | Node _ _ xc =>
      flat_map (fun y => match y with Node _ _ yc => if is_block y then flat_map f yc else f y end) xc
  end.

(** Inside functions, blocks and exports, a variable that is initialised with something that
    contains a function or class, but no block ([x => x + 1]), is not counted. *)
Definition lost (k : kind) (x : node) : bool :=
  match k with KVarDeclarator => with_function x && negb (with_block x) | _ => false end.

Fixpoint regs (t : node) : list reg :=
  match t with
  | Node k sp cs =>
      if ignored k sp cs then [] else
      match k with
      | KTs | KDebugger => []
      | KStmts =>
          flat_map (fun x => match x with Node _ xs xc => if next xs then [] else flat_map regs xc end) cs
      | KExprStmt =>
          match cs with
          | [x] =>
              if directive x then []
              else (if own_counter x then [] else [RStmt sp]) ++ regs x
          | _ => []
          end
      | KBreak | KContinue | KReturn | KLabeled | KTaggedTpl | KTry | KThrow => RStmt sp :: flat_map regs cs
      | KFor | KForIn | KForOf | KWhile | KDoWhile =>
          RStmt sp :: loop_regs regs cs
      | KVarDeclarator | KClassProp | KPrivateProp =>
          match cs with
          | _ :: x :: _ => (if is_none x || lost k x then [] else [RStmt (nspan x)]) ++ flat_map regs cs
          | _ => []
          end
      | KSwitch => RStmt sp :: RBranch BSwitch sp (flat_map cpaths cs) :: flat_map regs cs
      | KIf =>
          match cs with
          | [test; con; alt] =>
              let i := match H sp with Some IIf => true | _ => false end in
              let e := match H sp with Some IElse => true | _ => false end in
              RStmt sp :: RBranch BIf sp ((if i then [] else [sp]) ++ (if e then [] else [sp])) ::
              (if i then [] else arm_regs regs con) ++ (if e then [] else arm_regs regs alt) ++ regs test
          | _ => []
          end
      | KWith =>
          match cs with
          | [_; body] => RStmt sp :: arm_regs regs body
          | _ => []
          end
      | KCond =>
          match cs with
          | [_; con; alt] =>
              RBranch CondExpr sp (filter (fun p => negb (next p)) [nspan con; nspan alt]) :: flat_map regs cs
          | _ => []
          end
      | KBin op =>
          if short_circuit op then
            RBranch BinaryExpr sp (flat_map operand cs) ::
            flat_map (fun x => match x with Node _ _ xc => if closed_operand x then [] else flat_map regs xc end) cs
          else flat_map regs cs
      | KAssignPat =>
          match cs with
          | [_; Node _ _ rc as r] =>
              RBranch DefaultArg sp (operand r) :: (if closed_operand r then [] else flat_map regs rc)
          | _ => []
          end
      | KFnDecl =>
          match cs with
          | [id; fn] =>
              match ident_view id with
              | Some (name, isp) => fn_reg (Some name) isp fn ++ flat_map regs cs
              | None => []
              end
          | _ => []
          end
      | KFnExpr =>
          match cs with
          | [id; fn] =>
              match ident_view id with
              | Some (name, isp) =>
                  if skipped_name name then [] else fn_reg (Some name) isp fn ++ flat_map regs cs
              | None => fn_reg None (nspan fn) fn ++ flat_map regs cs
              end
          | _ => []
          end
      | KClassMethod =>
          match cs with
          | [key; fn] =>
              match prop_ident_view key with
              | Some (name, isp) =>
                  if skipped_name name then [] else fn_reg (Some name) isp fn ++ flat_map regs cs
              | None => []
              end
          | _ => []
          end
      | KMethodProp =>
          match cs with
          | [key; fn] =>
              match prop_ident_view key with
              | Some (name, isp) =>
                  if skipped_name name then [] else fn_reg (Some name) isp fn ++ flat_map regs cs
              | None => fn_reg (Some "anonymous"%string) dummy_span fn ++ flat_map regs cs
              end
          | _ => []
          end
      | KGetter | KSetter =>
          match cs with
          | key :: _ =>
              let body := last cs key in
              let own name decl := if is_none body then [] else [RFn (Some name) decl (nspan body)] in
              match prop_ident_view key with
              | Some (name, isp) => if skipped_name name then [] else own name isp ++ flat_map regs cs
              | None => own "anonymous"%string sp ++ flat_map regs cs
              end
          | [] => []
          end
      | KArrow =>
          match cs with
          | [_; Node _ bs bc as b; _] =>
              RFn None sp bs ::
              (if is_expr b then if next bs then [] else RStmt bs :: regs b else flat_map regs bc)
          | _ => []
          end
      | _ => flat_map regs cs
      end
  end.

(** A declaration at the top level: all initialised variables are counted. *)
Definition top_declarator (d : node) : list reg :=
  match d with
  | Node k sp cs =>
      match k with
      | KVarDeclarator =>
          if next sp then []
          else match cs with
               | _ :: x :: _ => (if is_none x then [] else [RStmt (nspan x)]) ++ flat_map regs cs
               | _ => []
               end
      | _ => regs d
      end
  end.
Definition top_declaration (t : node) : list reg :=
  if next (nspan t) then [] else flat_map (fun l => flat_map top_declarator (nkids l)) (nkids t).
Definition top_regs (y : node) : list reg :=
  match nkind y with KVarDecl _ => top_declaration y | _ => regs y end.
(** A statement or declaration at the top level of a module, and of a script.  The constants
    of an export statement are counted once more, whatever the hints. *)
Definition export_regs (y : node) : list reg :=
  match nkind y with
  | KExportDecl | KExportDefaultDecl => if next (nspan y) then [] else flat_map regs (nkids y)
  | _ => top_regs y
  end.
Definition item_regs (x : node) : list reg :=
  if string_item x then []
  else (match exported_consts x with Some esp => [RStmt esp] | None => [] end) ++
       (if next (nspan x) then [] else flat_map export_regs (nkids x)).
Definition program_regs (t : node) : list reg :=
  match t with
  | Node k _ [Node k' _ items] =>
      match k, k' with
      | KModule, KModuleItems => flat_map item_regs items
      | KScript, KStmts => flat_map (fun x => flat_map top_regs (nkids x)) items
      | _, _ => []
      end
  | _ => []
  end.
End Spec.

(** The shape of programs: cases stand in switch statements only, declarators in the list of a
    declaration, lists of statements contain statements.  Initialisers are no tagged templates.
    Statements inside an initialiser stand in a block. *)
Definition is_stmt (t : node) : bool := match nkind t with KStmt => true | _ => false end.
Definition is_list (t : node) : bool := match nkind t with KList => true | _ => false end.
Definition shaped (k : kind) (cs : list node) : bool :=
  match k with
  | KModuleItems | KScript | KExportDecl | KExportDefaultDecl => false
  | KStmts => forallb is_stmt cs
  | KCounter _ | KDebugger => match cs with [] => true | _ => false end
  | KVarDecl _ => match cs with [l] => is_list l | _ => false end
  | KVarDeclarator | KClassProp | KPrivateProp =>
      match cs with
      | _ :: x :: _ => is_none x || (negb (tagged x) && (with_block x || negb (with_stmt x)))
      | _ => true
      end
  | _ => true
  end.
Definition no_case (t : node) : bool := negb (is_case t || caselist t).
(** Declarators with a lost counter, their lists, declarations and statements *)
Definition lost_init (t : node) : bool :=
  match nkind t with
  | KVarDeclarator => match nkids t with _ :: x :: _ => negb (is_none x) && lost KVarDeclarator x | _ => false end
  | _ => false
  end.
Definition lost_list (t : node) : bool := match nkind t with KList => existsb lost_init (nkids t) | _ => false end.
Definition lost_decl (t : node) : bool := match nkind t with KVarDecl _ => existsb lost_list (nkids t) | _ => false end.
Definition lost_stmt (t : node) : bool := match nkind t with KStmt => existsb lost_decl (nkids t) | _ => false end.
Definition ordinary (t : node) : bool :=
  no_case t && negb (lost_init t || lost_list t || lost_decl t || lost_stmt t).
(** After a logical expression, no such declarator stands in the same list. *)
Fixpoint settled (ds : list node) : bool :=
  match ds with [] => true | d :: ds' => (quiet_ true d || negb (existsb lost_init ds')) && settled ds' end.
Definition placed (k : kind) (cs : list node) : bool :=
  match k with
  | KSwitch => match cs with [d; l] => ordinary d && negb (is_case l || lost_init l || lost_list l || lost_decl l || lost_stmt l) | _ => false end
  | KList => negb (existsb (fun c => caselist c || lost_list c || lost_decl c || lost_stmt c) cs) && settled cs
  | KVarDecl _ => forallb no_case cs
  | KStmts => forallb no_case cs
  | KStmt =>
      match cs with
      | [c] => no_case c && negb (lost_init c || lost_list c || lost_stmt c)
      | _ => forallb ordinary cs
      end
  | _ => forallb ordinary cs
  end.
Fixpoint proper (t : node) : bool :=
  match t with Node k _ cs => shaped k cs && placed k cs && forallb proper cs end.
(** At the top level: after a logical expression outside of functions, no such variable is
    declared, either. *)
Definition lost_item (x : node) : bool := existsb lost_decl (nkids x).
Fixpoint settled_items (xs : list node) : bool :=
  match xs with [] => true | x :: xs' => (quiet_item_ true x || negb (existsb lost_item xs')) && settled_items xs' end.
Definition proper_top (y : node) : bool :=
  match nkind y with KVarDecl _ => proper y | _ => ordinary y && proper y end.
Definition proper_child (y : node) : bool :=
  match nkind y with
  | KExportDecl | KExportDefaultDecl => placed KStmt (nkids y) && forallb proper (nkids y)
  | _ => proper_top y
  end.
Definition proper_item (x : node) : bool :=
  match nkids x with [y] => proper_child y | ys => forallb ordinary ys && forallb proper ys end.
Definition proper_script_item (x : node) : bool :=
  match nkids x with [y] => proper_top y | ys => forallb ordinary ys && forallb proper ys end.
Definition proper_program (t : node) : bool :=
  match t with
  | Node k _ [Node k' _ items] =>
      match k, k' with
      | KModule, KModuleItems => forallb proper_item items && settled_items items
      | KScript, KStmts => forallb proper_script_item items && settled_items items
      | _, _ => false
      end
  | _ => false
  end.

(** The model uses the same notions. *)
Lemma with_kind_occurs : forall p t, with_kind p t = occurs p t.
Proof. reflexivity. Qed.
Lemma short_circuit_op : forall op, short_circuit op = is_logical_op op.
Proof. now intros []. Qed.
Lemma with_logical_has : forall x, with_logical x = has_logical x.
Proof. reflexivity. Qed.
Lemma with_function_has : forall x, with_function x = has_hoisting x.
Proof. reflexivity. Qed.
Lemma with_block_has : forall x, with_block x = has_block x.
Proof. reflexivity. Qed.
Lemma with_stmt_has : forall x, with_stmt x = has_stmt x.
Proof. reflexivity. Qed.
Lemma expression_view : forall x, expression x = match expr_view x with Some (_, y) => Some (nkind y) | None => None end.
Proof. intros [[] sp [|y [|? ?]]]; reflexivity. Qed.
Lemma tagged_is : forall x, tagged x = is_tagged_tpl x.
Proof. intros x. unfold tagged, is_tagged_tpl. rewrite expression_view. now destruct (expr_view x) as [[? ?]|]. Qed.
Lemma own_counter_is : forall x, own_counter x = is_injected_counter_expr x.
Proof.
  intros x. unfold own_counter, is_injected_counter_expr. rewrite expression_view.
  now destruct (expr_view x) as [[? [[] ? ?]]|].
Qed.
Lemma directive_is : forall x, directive x = is_directive_expr x.
Proof.
  intros x. unfold directive, is_directive_expr. rewrite expression_view.
  now destruct (expr_view x) as [[? [[] ? ?]]|].
Qed.
Lemma string_item_is : forall x, string_item x = directive_continue x.
Proof.
  intros x. unfold string_item, directive_continue, expr_stmt_view, stmt_view.
  destruct x as [[] sp cs]; try reflexivity. destruct cs as [|[k sp' cs'] [|? ?]]; try reflexivity;
    destruct k; try reflexivity; destruct cs' as [|y [|? ?]]; try reflexivity.
  rewrite expression_view. destruct (expr_view y) as [[? [k' ? ?]]|]; [|reflexivity]. now destruct k'.
Qed.
Lemma exported_consts_is : forall x, exported_consts x = export_const_span x.
Proof. reflexivity. Qed.
Ltac same_notions H := rewrite ?with_logical_has, ?with_function_has, ?with_block_has, ?with_stmt_has, ?tagged_is,
  ?own_counter_is, ?directive_is, ?string_item_is, ?exported_consts_is, ?short_circuit_op in H.

(** The tables that a list of entries describes *)
Definition reg_stmts (e : env) (R : list reg) : list range :=
  flat_map (fun r => match r with RStmt sp => [range_of e sp] | _ => [] end) R.
Definition reg_fns (e : env) (R : list reg) : list (option string * range * range) :=
  flat_map (fun r => match r with RFn n d l => [(n, range_of e d, range_of e l)] | _ => [] end) R.
Definition reg_branches (e : env) (R : list reg) : list (branch_type * range * list range) :=
  flat_map (fun r => match r with RBranch t sp ps => [(t, range_of e sp, map (range_of e) ps)] | _ => [] end) R.
Definition fn_row (i : N) (x : option string * range * range) : func :=
  match x with
  | (n, d, l) =>
      mkFunc (match n with Some s => s | None => ("(anonymous_" ++ dec i ++ ")")%string end) d l (line (rstart l))
  end.
Definition branch_row (x : branch_type * range * list range) : branch :=
  match x with (t, l, ps) => mkBranch (Some l) t ps (Some (line (rstart l))) end.

(** ** Tables *)
Record tab (sc : source_cov) (S : list range) (F : list (option string * range * range))
    (B : list (branch_type * range * list range)) : Prop := mkTab {
  t_s : fc_statement_map (sc_fc sc) = number_from 0 S;
  t_f : fc_fn_map (sc_fc sc) = map (fun x => (fst x, fn_row (fst x) (snd x))) (number_from 0 F);
  t_b : fc_branch_map (sc_fc sc) = number_from 0 (map branch_row B);
  t_ns : sc_s sc = lenN S;
  t_nf : sc_f sc = lenN F;
  t_nb : sc_b sc = lenN B
}.

Fixpoint upd_nth {X} (n : nat) (f : X -> X) (l : list X) : list X :=
  match l, n with
  | [], _ => []
  | x :: l', O => f x :: l'
  | x :: l', Datatypes.S n' => x :: upd_nth n' f l'
  end.
Definition add_path (r : range) (x : branch_type * range * list range) : branch_type * range * list range :=
  match x with (t, l, ps) => (t, l, ps ++ [r])%list end.
Definition upd1 (e : env) (B : list (branch_type * range * list range)) (u : N * span) :=
  upd_nth (N.to_nat (fst u)) (add_path (range_of e (snd u))) B.
Definition upds (e : env) (U : list (N * span)) (B : list (branch_type * range * list range)) := fold_left (upd1 e) U B.

Lemma upd_nth_length : forall X n f (l : list X), length (upd_nth n f l) = length l.
Proof. intros X n f l. revert n. induction l; intros [|n]; cbn; auto. Qed.
Lemma upds_length : forall e U B, length (upds e U B) = length B.
Proof. intros e U. induction U as [|u U IH]; intros B; [reflexivity|]. cbn. unfold upds in IH. rewrite IH. apply upd_nth_length. Qed.
Lemma upd_nth_app : forall X n f (a b : list X), (n < length a)%nat -> upd_nth n f (a ++ b) = upd_nth n f a ++ b.
Proof. intros X n f a b. revert n. induction a as [|x a IH]; intros [|n] H; cbn in *; try lia; [reflexivity|]. rewrite IH; [reflexivity|lia]. Qed.
Lemma upd_nth_mid : forall X f (a : list X) x b, upd_nth (length a) f (a ++ x :: b) = a ++ f x :: b.
Proof. intros X f a x b. induction a as [|y a IH]; [reflexivity|]. cbn. now rewrite IH. Qed.
Definition below (U : list (N * span)) {X} (B : list X) : Prop := Forall (fun u => fst u < lenN B) U.
Lemma upds_app_B : forall e U a b, below U a -> upds e U (a ++ b) = upds e U a ++ b.
Proof.
  intros e U. induction U as [|u U IH]; intros a b H; [reflexivity|]. inversion H; subst. cbn.
  unfold upd1 at 2 4. rewrite upd_nth_app by (unfold lenN in *; lia).
  unfold upds in IH. rewrite IH; [reflexivity|]. unfold below, lenN in *. now rewrite upd_nth_length.
Qed.
Lemma upds_app : forall e U V B, upds e (U ++ V) B = upds e V (upds e U B).
Proof. intros. unfold upds. apply fold_left_app. Qed.
Lemma upds_new : forall e ps B t l qs,
  upds e (map (pair (lenN B)) ps) (B ++ [(t, l, qs)]) = B ++ [(t, l, qs ++ map (range_of e) ps)].
Proof.
  intros e ps. induction ps as [|p ps IH]; intros B t l qs; cbn; [now rewrite app_nil_r|].
  unfold upd1 at 2. cbn [fst snd]. unfold lenN at 2. rewrite Nnat.Nat2N.id, upd_nth_mid. cbn [add_path].
  unfold upds in IH. rewrite IH. now rewrite <- app_assoc.
Qed.


(** The tables of [c'] are those of [c] with the entries of [R] added at the end, and the paths
    [U] added to existing branches. *)
Section Adds.
Variable e : env.
Definition adds (R : list reg) (U : list (N * span)) (c c' : source_cov) : Prop :=
  forall S F B, below U B -> tab c S F B ->
  tab c' (S ++ reg_stmts e R) (F ++ reg_fns e R) (upds e U B ++ reg_branches e R).

Lemma adds_nil : forall c, adds [] [] c c.
Proof. intros c S F B _ T. cbn. now rewrite !app_nil_r. Qed.
Lemma below_length : forall U X Y (A : list X) (B : list Y), (length A <= length B)%nat -> below U A -> below U B.
Proof.
  intros U X Y A B Hl Hb. unfold below in *. eapply Forall_impl; [|exact Hb]. intros u Hu. unfold lenN in *. cbn in Hu. lia.
Qed.
Lemma adds_comp : forall R1 U1 R2 U2 a b c, adds R1 U1 a b -> adds R2 U2 b c -> adds (R1 ++ R2) (U1 ++ U2) a c.
Proof.
  intros R1 U1 R2 U2 a b c H1 H2 S F B Hb T. unfold below in Hb. apply Forall_app in Hb as [B1 B2].
  specialize (H1 S F B B1 T).
  assert (L : (length B <= length (upds e U1 B))%nat) by now rewrite upds_length.
  assert (B2' : below U2 (upds e U1 B)) by now apply (below_length _ _ _ B).
  eapply H2 in H1; [|apply (below_length _ _ _ (upds e U1 B)); [rewrite app_length; lia|assumption]].
  unfold reg_stmts, reg_fns, reg_branches in *. rewrite !flat_map_app, !app_assoc.
  rewrite upds_app_B in H1 by assumption. now rewrite upds_app.
Qed.

Lemma insert_new : forall X (l : list X) x, im_insert (lenN l) x (number_from 0 l) = number_from 0 (l ++ [x]).
Proof. intros. rewrite number_from_snoc. apply im_insert_fresh. apply fresh_key_raw. Qed.
Lemma lenN_snoc : forall X (l : list X) x, lenN (l ++ [x]) = lenN l + 1.
Proof. intros. unfold lenN. rewrite app_length. cbn. lia. Qed.

Lemma adds_stmt : forall sp c, adds [RStmt sp] [] c (fst (new_statement (range_of e sp) c)).
Proof.
  intros sp c S F B _ T. cbn. rewrite !app_nil_r. destruct T. constructor; cbn; auto.
  - rewrite t_s0, t_ns0. apply insert_new.
  - rewrite t_ns0. now rewrite lenN_snoc.
Qed.
Lemma adds_fn : forall name d l c,
  adds [RFn name d l] [] c (fst (new_function name (range_of e d) (range_of e l) c)).
Proof.
  intros name d l c S F B _ T. cbn. rewrite !app_nil_r. destruct T. constructor; cbn; auto.
  - rewrite t_f0, t_nf0. rewrite number_from_snoc, map_app. cbn.
    rewrite im_insert_fresh by apply fresh_key. unfold fn_name_or_anonymous. destruct name; reflexivity.
  - rewrite t_nf0. now rewrite lenN_snoc.
Qed.
Lemma adds_branch : forall t sp l ps R c c'' c' b, new_branch t (range_of e sp) l c = (c', b) ->
  adds R (map (pair b) ps) c' c'' -> adds (RBranch t sp ps :: R) [] c c''.
Proof.
  intros t sp l ps R c c'' c' b Hn HR S F B _ T. unfold new_branch in Hn. inversion Hn; subst. clear Hn.
  assert (Hb : sc_b c = lenN B) by apply T.
  specialize (HR S F (B ++ [(t, range_of e sp, [])])). rewrite Hb in HR.
  change (RBranch t sp ps :: R) with ([RBranch t sp ps] ++ R). unfold reg_stmts, reg_fns, reg_branches in *.
  rewrite !flat_map_app. cbn [flat_map app upds fold_left]. rewrite upds_new in HR. rewrite <- app_assoc in HR.
  cbn [app] in HR |- *. apply HR.
  - unfold below. apply Forall_forall. intros u Hu. apply in_map_iff in Hu as (p & <- & _). rewrite lenN_snoc. cbn. lia.
  - destruct T. constructor; cbn; auto.
    + rewrite t_b0. rewrite map_app. cbn. rewrite <- insert_new. unfold lenN. now rewrite map_length.
    + now rewrite lenN_snoc.
Qed.

Lemma update_nth : forall X (f : X -> X) (l : list X) b i, i <= b ->
  im_update b f (number_from i l) = number_from i (upd_nth (N.to_nat (b - i)) f l).
Proof.
  intros X f l. induction l as [|x l IH]; intros b i Hi; cbn; [now destruct (N.to_nat (b - i))|].
  destruct (N.eqb_spec b i) as [->|Hne].
  - rewrite N.sub_diag. reflexivity.
  - rewrite IH by lia. replace (N.to_nat (b - i)) with (Datatypes.S (N.to_nat (b - (i + 1)))) by lia. reflexivity.
Qed.
Lemma upd_nth_map : forall X Y (g : X -> Y) f h (l : list X) n, (forall x, g (f x) = h (g x)) ->
  upd_nth n h (map g l) = map g (upd_nth n f l).
Proof. intros X Y g f h l. induction l as [|x l IH]; intros [|n] Hg; cbn; auto; [now rewrite Hg|now rewrite IH]. Qed.

Lemma adds_path : forall b sp c c' i, add_branch_path b (range_of e sp) c = Ok (c', i) -> adds [] [(b, sp)] c c'.
Proof.
  intros b sp c c' i Ha S F B Hb T. unfold add_branch_path in Ha.
  apply bind_ok in Ha as (x & _ & Ha). apply bind_ok in Ha as (y & _ & Ha). apply bind_ok in Ha as (z & _ & Ha).
  inversion Ha; subst. clear Ha. cbn. rewrite !app_nil_r. destruct T. constructor; cbn; auto.
  - rewrite t_b0. rewrite update_nth by lia. rewrite N.sub_0_r. unfold upd1. cbn [fst snd]. f_equal.
    apply upd_nth_map. intros [[t l] ps]. reflexivity.
  - unfold upd1. unfold lenN in *. now rewrite upd_nth_length.
Qed.
End Adds.

(** ** The visitors *)
Section Main.
Variable e : env.
Notation H := (hint e).
Notation rl := (e_report_logic e).
Notation M := (e_ignore_methods e).
Notation nx := (next H).
Notation rg := (regs H rl M).
Notation lp := (lpaths H).
Notation op_ := (operand H).
Notation cp := (cpaths H).
Notation adds := (adds e).
Hypothesis nodummy : nx dummy_span = false.

Definition srg (x : node) : list reg := if nx (nspan x) then [] else flat_map rg (nkids x).
Definition Rv (v : vis) (t : node) : list reg := match v with VLogical _ => [] | _ => rg t end.
Definition Uv (v : vis) (t : node) : list (N * span) :=
  match v with VLogical b => map (pair b) (lp t) | VSwitch b => map (pair b) (cp t) | _ => [] end.
Definition fitv (v : vis) (t : node) : bool :=
  match v with VSwitch _ | VLogical _ => true | _ => no_case t end.
(** Place [m] of the stack is neither a block nor the program. *)
Definition inner (m : nat) (stk : list nk) : Prop :=
  match nth_error stk m with Some NBlockStmt | Some NProgram | None => False | Some _ => True end.
Definition free (t : node) (stk : list nk) : Prop :=
  (lost_init t || lost_list t = true -> inner 2 stk) /\ (lost_decl t = true -> inner 1 stk) /\ lost_stmt t = false.
Definition fit (v : vis) (t : node) (stk : list nk) : Prop :=
  fitv v t = true /\ (is_instr v = true -> free t stk).
Fixpoint fits (v : vis) (ts : list node) (stk : list nk) : Prop :=
  match ts with
  | [] => True
  | t :: ts' => fit v t stk /\ (forall stk', (is_instr v = true -> quiet_ true t = true -> stk' = stk) -> fits v ts' stk')
  end.

Lemma quiet_any : forall r t, quiet_ true t = true -> quiet_ r t = true.
Proof.
  intros r. induction t as [k sp cs IH] using node_ind'. intros Hq. cbn [quiet_] in *.
  assert (G : forallb (quiet_ true) cs = true -> forallb (quiet_ r) cs = true).
  { intros G. rewrite forallb_forall in *. rewrite Forall_forall in IH. auto. }
  destruct k; try reflexivity; apply andb_true_iff in Hq as [Q1 Q2]; rewrite (G Q2), andb_true_r; try exact Q1; discriminate Q1.
Qed.
Lemma ordinary_free : forall t, ordinary t = true -> no_case t = true /\ forall stk, free t stk.
Proof.
  intros t Ho. unfold ordinary in Ho. apply andb_true_iff in Ho as [A B]. split; [assumption|]. intros stk.
  apply negb_true_iff in B. apply orb_false_iff in B as [B D]. apply orb_false_iff in B as [B C].
  unfold free. rewrite B, C, D. repeat split; discriminate.
Qed.
Lemma ordinary_no_case : forall ts, forallb ordinary ts = true -> forallb no_case ts = true.
Proof. intros ts Ho. rewrite forallb_forall in *. intros x Hx. now apply ordinary_free, Ho. Qed.
Lemma ordinary_fit : forall v t stk, ordinary t = true -> fit v t stk.
Proof.
  intros v t stk Ho. apply ordinary_free in Ho as [A B]. split; [|auto]. unfold fitv. now destruct v.
Qed.
Lemma ordinary_fits : forall v ts stk, forallb ordinary ts = true -> fits v ts stk.
Proof.
  intros v ts. induction ts as [|t ts IH]; intros stk Ho; [exact I|]. cbn in Ho |- *. apply andb_true_iff in Ho as [A B].
  split; [now apply ordinary_fit|auto].
Qed.
Lemma logical_fits : forall b ts stk, fits (VLogical b) ts stk.
Proof.
  intros b ts. induction ts as [|t ts IH]; intros stk; [exact I|]. split; [|auto]. split; [reflexivity|discriminate].
Qed.

Lemma is_next_nx : forall sp, is_next (H sp) = nx sp.
Proof. intros. unfold next. destruct (H sp) as [[]|]; reflexivity. Qed.
Lemma nx_hint : forall sp, nx sp = true -> H sp = Some INext.
Proof. intros sp. unfold next. destruct (H sp) as [[]|]; try discriminate; reflexivity. Qed.

Lemma rg_eq : forall k sp cs, ignored H k sp cs = true -> rg (Node k sp cs) = [].
Proof. intros k sp cs Hi. cbn [regs]. now rewrite Hi. Qed.
Lemma stmts_eq : forall sp cs, rg (Node KStmts sp cs) = flat_map srg cs.
Proof. intros. cbn [regs]. unfold ignored. cbn. apply flat_map_ext. intros [k xs xc]. reflexivity. Qed.

Lemma proper_good : forall t, proper t = true -> good false t = true.
Proof.
  induction t as [k sp cs IH] using node_ind'. intros Hp. cbn [proper] in Hp. apply andb_true_iff in Hp as [Hp Hc].
  apply andb_true_iff in Hp as [Hs _]. cbn [good]. apply andb_true_iff. split.
  - unfold node_ok. cbn. rewrite andb_true_r. now destruct k.
  - apply forallb_forall. intros x Hx. rewrite Forall_forall in IH. apply IH; auto. rewrite forallb_forall in Hc. auto.
Qed.

Lemma enter_reg : forall n sp s sk body t' s', is_next (ign s) = false -> nx sp = false ->
  enter_exit e n sp s sk body = Ok (t', s') ->
  exists s2, body (H sp) (mkSt (cov s) (before s) (n :: stack s) (H sp)) = Ok (t', s2) /\
    cov s' = cov s2 /\ ign s' = ign s.
Proof.
  intros n sp s sk body t' s' Hn Hx He. unfold enter_exit, on_enter, on_enter_with_span in He.
  cbn [ign push] in He. rewrite Hn in He. cbn iota zeta beta in He. rewrite is_next_nx, Hx in He.
  apply bind_ok in He as [[t1 s2] [Hb He]]. inversion He; subst. exists s2. repeat split. exact Hb.
Qed.

Section Step.
Variable n : nat.
Hypothesis IH : forall v t s t' s', is_next (ign s) = false -> proper t = true -> fit v t (stack s) ->
  visit e n v t s = Ok (t', s') -> is_next (ign s') = false /\ adds (Rv v t) (Uv v t) (cov s) (cov s').

Lemma kids_reg : forall v ts s ts' s', is_next (ign s) = false -> forallb proper ts = true -> fits v ts (stack s) ->
  visit_list (visit e n) v ts s = Ok (ts', s') ->
  is_next (ign s') = false /\ adds (flat_map (Rv v) ts) (flat_map (Uv v) ts) (cov s) (cov s').
Proof.
  intros v ts. induction ts as [|t ts IHt]; intros s ts' s' Hn Hp Hf Hv; cbn [visit_list] in Hv.
  - inversion Hv; subst. split; [assumption|apply adds_nil].
  - apply bind_ok in Hv as [[t1 s1] [Ht Hv]]. apply bind_ok in Hv as [[ts1 s2] [Hl Hv]]. inversion Hv; subst.
    cbn in Hp, Hf. apply andb_true_iff in Hp as [Hp1 Hp2]. destruct Hf as [Hf1 Hf2].
    assert (Hst : is_instr v = true -> quiet_ true t = true -> stack s1 = stack s).
    { intros Hi Hq. apply (visit_sound e n) in Ht. apply (proj1 (quiet_all e)) in Ht.
      destruct (Ht (quiet_any _ _ Hq)) as [C _]. specialize (C Hi). unfold context in C. congruence. }
    destruct (IH _ _ _ _ _ Hn Hp1 Hf1 Ht) as [Hn1 A1]. destruct (IHt _ _ _ Hn1 Hp2 (Hf2 _ Hst) Hl) as [Hn2 A2].
    split; [assumption|]. cbn [flat_map]. eapply adds_comp; eassumption.
Qed.

Lemma no_case_cp : forall t, no_case t = true -> cp t = [].
Proof.
  intros [k sp cs] Hc. unfold no_case in Hc. apply negb_true_iff, orb_false_iff in Hc as [C1 C2].
  assert (G : cpath H (Node k sp cs) = []) by (unfold cpath; now rewrite C1).
  unfold caselist in C2. unfold cpaths. cbn [nkind nkids] in *. destruct k; try exact G.
  clear G C1. induction cs as [|c cs IHc]; [reflexivity|]. cbn in C2 |- *. apply orb_false_iff in C2 as [C2 C3].
  rewrite IHc by assumption. unfold cpath. now rewrite C2.
Qed.
Lemma no_case_Uv : forall v ts, is_instr v = true -> forallb no_case ts = true -> flat_map (Uv v) ts = [].
Proof.
  intros v ts Hi Hc. induction ts as [|t ts IHt]; [reflexivity|]. cbn in Hc |- *. apply andb_true_iff in Hc as [C1 C2].
  rewrite IHt by assumption. destruct v; cbn; try reflexivity; try discriminate. now rewrite no_case_cp.
Qed.
Lemma Rv_instr : forall v ts, is_instr v = true -> flat_map (Rv v) ts = flat_map rg ts.
Proof. intros v ts Hi. destruct v; try reflexivity; discriminate. Qed.

Lemma Rv1 : forall v t, is_instr v = true -> Rv v t = rg t.
Proof. intros v t Hi. destruct v; try reflexivity; discriminate. Qed.
Lemma Uv1 : forall v t, is_instr v = true -> no_case t = true -> Uv v t = [].
Proof. intros v t Hi Hc. destruct v; cbn; try reflexivity; try discriminate. now rewrite no_case_cp. Qed.

Lemma kids_fit : forall v k sp ts s t' s', is_instr v = true -> is_next (ign s) = false -> forallb proper ts = true ->
  forallb no_case ts = true -> fits v ts (stack s) -> visit_children (visit e n) v (Node k sp ts) s = Ok (t', s') ->
  is_next (ign s') = false /\ adds (flat_map rg ts) [] (cov s) (cov s').
Proof.
  intros v k sp ts s t' s' Hi Hn Hp Hc Hf Hv. cbn [visit_children] in Hv.
  apply bind_ok in Hv as [[ts1 s1] [Hl Hv]]. inversion Hv; subst.
  destruct (kids_reg _ _ _ _ _ Hn Hp Hf Hl) as [A B].
  rewrite Rv_instr, no_case_Uv in B by assumption. auto.
Qed.
Lemma kids_instr : forall v k sp ts s t' s', is_instr v = true -> is_next (ign s) = false -> forallb proper ts = true ->
  forallb ordinary ts = true -> visit_children (visit e n) v (Node k sp ts) s = Ok (t', s') ->
  is_next (ign s') = false /\ adds (flat_map rg ts) [] (cov s) (cov s').
Proof.
  intros v k sp ts s t' s' Hi Hn Hp Hc Hv. eapply kids_fit; eauto; [now apply ordinary_no_case|now apply ordinary_fits].
Qed.

Lemma injected_srg : forall x, proper x = true -> is_injected_counter_stmt x = true -> srg x = [].
Proof.
  intros x Hp Hi. unfold is_injected_counter_stmt, expr_stmt_view in Hi.
  destruct (stmt_view x) as [[sp y]|] eqn:E1; [|discriminate]. apply stmt_view_inv in E1. subst x.
  destruct y as [k ysp ycs]. destruct k; try discriminate. destruct ycs as [|z [|? ?]]; try discriminate.
  unfold is_injected_counter_expr in Hi. destruct (expr_view z) as [[zsp c]|] eqn:E2; [|discriminate].
  apply expr_view_inv in E2. subst z. destruct c as [k csp ccs]. cbn [nkind] in Hi. destruct k; try discriminate.
  cbn in Hp. destruct ccs as [|? ?]; [|rewrite ?andb_false_r in Hp; discriminate].
  unfold srg. cbn. unfold ignored. cbn. destruct (nx sp); [reflexivity|]. destruct (nx ysp); [reflexivity|].
  destruct c as [i|i|b i|b i]; try discriminate Hi; reflexivity.
Qed.

Lemma stmt_kids : forall x stk, is_stmt x = true -> proper x = true -> inner 0 stk ->
  forallb no_case (nkids x) = true /\ forallb proper (nkids x) = true /\ fits VStmt (nkids x) (NStmt :: stk).
Proof.
  intros [k sp cs] stk Hs Hp Hi. unfold is_stmt in Hs. cbn [nkind] in Hs. destruct k; try discriminate.
  cbn [proper shaped] in Hp. apply andb_true_iff in Hp as [Hp K]. apply andb_true_iff in Hp as [_ Hp]. cbn [nkids].
  assert (G : forallb ordinary cs = true -> forallb no_case cs = true /\ forallb proper cs = true /\ fits VStmt cs (NStmt :: stk)).
  { intros G. split; [now apply ordinary_no_case|]. split; [assumption|now apply ordinary_fits]. }
  destruct cs as [|c [|? ?]]; cbn [placed] in Hp; auto. clear G.
  apply andb_true_iff in Hp as [C1 C2]. apply negb_true_iff, orb_false_iff in C2 as [C2 C3].
  split; [cbn [forallb]; now rewrite C1|]. split; [assumption|]. split; [|intros; exact I]. split; [exact C1|].
  intros _. unfold free. rewrite C2, C3. split; [discriminate|]. split; [intros _; exact Hi|reflexivity].
Qed.

Lemma ins_reg : forall ss s ss' s', is_next (ign s) = false -> forallb proper ss = true -> forallb is_stmt ss = true ->
  inner 0 (stack s) -> insert_stmts_counter e (visit e n) ss s = Ok (ss', s') ->
  is_next (ign s') = false /\ adds (flat_map srg ss) [] (cov s) (cov s').
Proof.
  induction ss as [|x ss IHs]; intros s ss' s' Hn Hp Hs Hin Hv.
  - inversion Hv; subst. split; [assumption|apply adds_nil].
  - cbn in Hp, Hs. apply andb_true_iff in Hp as [Hp1 Hp2]. apply andb_true_iff in Hs as [Hs1 Hs2].
    cbn [flat_map]. change (@nil (N * span)) with ([] ++ @nil (N * span)).
    destruct (nx (nspan x)) eqn:Hx.
    + rewrite ignore_next_stmt in Hv by now apply nx_hint.
      apply bind_ok in Hv as [[ss1 s1] [Hv Hr]]. inversion Hr; subst.
      unfold srg at 1. rewrite Hx. cbn [app]. eapply IHs; eauto.
    + cbn [insert_stmts_counter] in Hv. apply bind_ok in Hv as [[new s1] [Hv Hr]].
      apply bind_ok in Hr as [[rest s2] [Hl Hr]]. inversion Hr; subst.
      assert (A : is_next (ign s1) = false /\ stack s1 = stack s /\ adds (srg x) [] (cov s) (cov s1)).
      { destruct (is_injected_counter_stmt x) eqn:Hj.
        - inversion Hv; subst. rewrite injected_srg by assumption. split; [assumption|]. split; [reflexivity|apply adds_nil].
        - unfold on_enter, on_enter_with_span in Hv. cbn [ign push] in Hv. rewrite Hn in Hv.
          cbn iota zeta beta in Hv. rewrite is_next_nx, Hx in Hv. apply bind_ok in Hv as [[x' sv] [Hk Hv]].
          inversion Hv; subst. split; [exact Hn|]. split; [reflexivity|].
          destruct (stmt_kids x (stack s) Hs1 Hp1 Hin) as (K1 & K2 & K3).
          destruct x as [k sp cs]. unfold srg. rewrite Hx. cbn [nspan nkids] in *.
          apply (kids_fit VStmt k sp cs _ x' sv eq_refl) in Hk; auto. apply Hk. }
      destruct A as (A1 & A2 & A3). rewrite <- A2 in Hin. destruct (IHs _ _ _ A1 Hp2 Hs2 Hin Hl) as [B1 B2]. split; [assumption|].
      eapply adds_comp; eassumption.
Qed.

(** Rebuilt children *)
Lemma paren_rg : forall c x, rg (paren_seq c x) = rg x.
Proof. intros. unfold paren_seq, E, mk, counter_expr. cbn. unfold ignored. cbn. now rewrite !app_nil_r. Qed.
Lemma proper_node : forall k sp cs, proper (Node k sp cs) = true ->
  shaped k cs = true /\ placed k cs = true /\ forallb proper cs = true.
Proof. intros k sp cs Hp. cbn [proper] in Hp. apply andb_true_iff in Hp as [Hp ?]. apply andb_true_iff in Hp as [? ?]. auto. Qed.
Lemma expr_ordinary : forall x, is_expr x = true -> ordinary x = true.
Proof. intros [k sp cs] Hx. unfold is_expr in Hx. cbn in Hx. destruct k; try discriminate. reflexivity. Qed.
Lemma paren_proper : forall c x, is_expr x = true -> proper x = true -> proper (paren_seq c x) = true.
Proof.
  intros c x Hx Hp. unfold paren_seq, E, mk, counter_expr. cbn. rewrite Hp. cbn.
  rewrite (expr_ordinary x Hx). reflexivity.
Qed.
Lemma paren_no_case : forall c x, ordinary (paren_seq c x) = true.
Proof. reflexivity. Qed.
Lemma expr_kids : forall x, is_expr x = true -> proper x = true ->
  forallb ordinary (nkids x) = true /\ forallb proper (nkids x) = true.
Proof.
  intros [k sp cs] Hs Hp. unfold is_expr in Hs. cbn [nkind] in Hs. destruct k; try discriminate.
  apply proper_node in Hp as (_ & ? & ?). auto.
Qed.

Lemma no_logical_lp : forall x, has_logical x = false -> lp x = [].
Proof.
  induction x as [k sp cs IHx] using node_ind'. intros Hl. unfold has_logical in Hl. cbn [occurs] in Hl.
  apply orb_false_iff in Hl as [Hk Hc].
  assert (G : flat_map lp cs = []).
  { induction IHx as [|c cs Hc1 _ IHc]; [reflexivity|]. cbn in Hc |- *. apply orb_false_iff in Hc as [C1 C2].
    rewrite Hc1, IHc by assumption. reflexivity. }
  cbn [lpaths]. destruct k; try exact G; [destruct (nx sp); [reflexivity|exact G]|].
  cbn in Hk. rewrite short_circuit_op, Hk. destruct (nx sp); [reflexivity|exact G].
Qed.
Lemma no_logical_kids : forall x, has_logical x = false -> flat_map lp (nkids x) = [].
Proof.
  intros [k sp cs] Hl. unfold has_logical in Hl. cbn [occurs] in Hl. apply orb_false_iff in Hl as [_ Hc]. cbn [nkids].
  induction cs as [|c cs IHc]; [reflexivity|]. cbn in Hc |- *. apply orb_false_iff in Hc as [C1 C2].
  rewrite IHc, no_logical_lp by assumption. reflexivity.
Qed.
Lemma logical_kids : forall b k sp ts s t' s', is_next (ign s) = false -> forallb proper ts = true ->
  visit_children (visit e n) (VLogical b) (Node k sp ts) s = Ok (t', s') ->
  is_next (ign s') = false /\ adds [] (map (pair b) (flat_map lp ts)) (cov s) (cov s').
Proof.
  intros b k sp ts s t' s' Hn Hp Hv. cbn [visit_children] in Hv.
  apply bind_ok in Hv as [[ts1 s1] [Hl Hv]]. inversion Hv; subst.
  eapply kids_reg in Hl; auto; [|apply logical_fits].
  destruct Hl as [A B]. split; [assumption|].
  replace (flat_map (Rv (VLogical b)) ts) with (@nil reg) in B by (clear; induction ts; auto).
  replace (flat_map (Uv (VLogical b)) ts) with (map (pair b) (flat_map lp ts)) in B; [exact B|].
  clear. induction ts as [|t ts IHt]; [reflexivity|]. cbn. rewrite map_app, IHt. reflexivity.
Qed.

Definition Wr (v : vis) (x : node) : list reg :=
  match v with VLogical _ => [] | _ => if closed_operand H rl x then [] else flat_map rg (nkids x) end.
Lemma wrap_reg : forall v b x s x' s', is_next (ign s) = false -> proper x = true ->
  wrap_bin_expr_with_branch_counter e (visit e n) v b x s = Ok (x', s') ->
  is_next (ign s') = false /\ adds (Wr v x) (map (pair b) (op_ x)) (cov s) (cov s').
Proof.
  intros v b x s x' s' Hn Hp Hw. unfold wrap_bin_expr_with_branch_counter in Hw.
  destruct (is_expr x) eqn:Hx; [|discriminate]. cbn [negb] in Hw. rewrite is_next_nx in Hw.
  destruct (expr_kids x Hx Hp) as [K1 K2].
  unfold Wr, operand. rewrite with_logical_has. destruct (nx (nspan x)) eqn:Hs.
  { assert (Hcl : closed_operand H rl x = true) by (unfold closed_operand; now rewrite Hs). rewrite Hcl.
    inversion Hw; subst. split; [assumption|]. destruct v; apply adds_nil. }
  destruct (has_logical x) eqn:Hl.
  { assert (Hcl : closed_operand H rl x = true) by (unfold closed_operand; now rewrite Hs, with_logical_has, Hl). rewrite Hcl.
    apply bind_ok in Hw as [[x1 sv] [Hv Hw]]. inversion Hw; subst. split; [assumption|].
    destruct x as [k sp cs]. cbn [nkids nspan] in *. apply logical_kids in Hv; auto.
    cbn [cov spawn set_cov] in *. destruct v; apply Hv. }
  assert (Hcl : closed_operand H rl x = rl) by (unfold closed_operand; now rewrite Hs, with_logical_has, Hl). rewrite Hcl.
  assert (Hrl : rl = true \/ rl = false) by (destruct rl; auto). destruct Hrl as [Hrl|Hrl]; rewrite Hrl in Hw.
  { apply bind_ok in Hw as [[c i] [Ha Hw]]. inversion Hw; subst. split; [assumption|]. apply adds_path in Ha.
    assert (G : (if rl then [] else flat_map rg (nkids x)) = []) by now rewrite Hrl. rewrite G. destruct v; exact Ha. }
  assert (G : (if rl then [] else flat_map rg (nkids x)) = flat_map rg (nkids x)).
  { clear - Hrl. destruct rl; [discriminate|reflexivity]. }
  rewrite G. clear G Hcl Hrl.
  apply bind_ok in Hw as [[x1 s1] [Hv Hw]].
  unfold replace_expr_with_branch_counter in Hw. destruct (is_expr x1); [|discriminate]. cbn [negb] in Hw.
  apply bind_ok in Hw as [[c i] [Ha Hw]]. inversion Hw; subst.
  assert (Hsp : nspan x1 = nspan x).
  { destruct x as [k sp cs]. cbn [visit_children] in Hv. apply bind_ok in Hv as [[cs1 s2] [_ Hv]]. inversion Hv. reflexivity. }
  rewrite Hsp in Ha. apply adds_path in Ha. cbn [map].
  assert (A : is_next (ign s1) = false /\ adds (match v with VLogical _ => [] | _ => flat_map rg (nkids x) end) [] (cov s) (cov s1)).
  { destruct x as [k sp cs]. cbn [nkids] in *. destruct (is_instr v) eqn:Hi.
    - apply kids_instr in Hv; auto. destruct v; try discriminate; exact Hv.
    - destruct v; try discriminate. apply logical_kids in Hv; auto.
      pose proof (no_logical_kids _ Hl) as G. cbn [nkids] in G. now rewrite G in Hv. }
  destruct A as [A1 A2]. split; [exact A1|]. cbn [cov set_cov].
  pose proof (adds_comp _ _ _ _ _ _ _ _ A2 Ha) as G. rewrite app_nil_r in G. exact G.
Qed.

Lemma mark_reg : forall sp s, adds [RStmt sp] [] (cov s) (cov (mark_prepend_stmt_counter e sp s)).
Proof. intros. unfold mark_prepend_stmt_counter. rewrite (surjective_pairing (new_statement _ _)). apply adds_stmt. Qed.
Lemma mark_ign : forall sp s, ign (mark_prepend_stmt_counter e sp s) = ign s.
Proof. reflexivity. Qed.

(** Whether the counter of an initialiser with a function, but no block, is kept *)
Definition counted (stk : list nk) : bool :=
  match nodes_get 4 stk with Some NBlockStmt | Some NProgram => true | _ => false end.
Lemma inner_counted : forall a stk, inner 2 stk -> counted (a :: stk) = false.
Proof.
  intros a stk Hi. unfold inner in Hi. unfold counted, nodes_get.
  destruct stk as [|b [|c [|d stk]]]; cbn in Hi; try contradiction. cbn. destruct d; try reflexivity; contradiction.
Qed.
Definition init_regs (cnt : bool) (k : kind) (cs : list node) : list reg :=
  match cs with
  | _ :: x :: _ => (if is_none x || (lost k x && negb cnt) then [] else [RStmt (nspan x)]) ++ flat_map rg cs
  | _ => []
  end.

Lemma cover_reg : forall v k cs name x rest s x' s', cs = name :: x :: rest ->
  match k with KVarDeclarator => hd NProgram (stack s) = NVarDeclarator
  | KClassProp | KPrivateProp => hd NProgram (stack s) <> NVarDeclarator | _ => False end ->
  shaped k cs = true -> is_none x = false -> proper x = true ->
  stack s <> [] -> cover_statement e (visit e n) v x s = Ok (x', s') ->
  ign s' = ign s /\ adds (if lost k x && negb (counted (stack s)) then [] else [RStmt (nspan x)]) [] (cov s) (cov s') /\
  rg x' = rg x /\ proper x' = true /\ ordinary x' = true.
Proof.
  intros v k cs name x rest s x' s' -> Hk Hs Hno Hp Hst Hc. unfold cover_statement in Hc.
  destruct (is_expr x) eqn:Hx; [|discriminate]. cbn [negb] in Hc.
  assert (Hs' : is_tagged_tpl x = false /\ (has_block x = true \/ has_stmt x = false)).
  { unfold shaped in Hs. destruct k; try contradiction; rewrite Hno in Hs; same_notions Hs; cbn [orb] in Hs;
    apply andb_true_iff in Hs as [S1 S2]; apply negb_true_iff in S1; (split; [exact S1|]);
    apply orb_true_iff in S2 as [S2|S2]; auto; right; now apply negb_true_iff. }
  destruct Hs' as [Ht Hb]. rewrite Ht in Hc.
  assert (keep : forall R s0, ign s0 = ign s /\ adds R [] (cov s) (cov s0) ->
    ign s0 = ign s /\ adds R [] (cov s) (cov s0) /\ rg x = rg x /\ proper x = true /\ ordinary x = true).
  { intros R s0 [A B]. split; [assumption|]. split; [assumption|]. split; [reflexivity|]. split; [assumption|]. now apply expr_ordinary. }
  assert (Hl : lost k x = match k with KVarDeclarator => has_hoisting x && negb (has_block x) | _ => false end)
    by (destruct k; reflexivity).
  destruct (has_block x) eqn:Hbl.
  { assert (Hl' : lost k x = false) by (rewrite Hl; destruct k; rewrite ?andb_false_r; reflexivity).
    rewrite Hl'. inversion Hc; subst. apply keep. split; [reflexivity|apply mark_reg]. }
  destruct Hb as [Hb|Hst']; [discriminate|]. rewrite Hst' in Hc.
  destruct (stack s) as [|p stk] eqn:Es; [contradiction|]. cbn [hd] in Hk.
  assert (Hhp : has_hoisting x && match p with NVarDeclarator => true | _ => false end = lost k x).
  { rewrite Hl. cbn [negb]. destruct k; try contradiction; [subst p; reflexivity| |]; apply andb_false_iff; right;
    destruct p; try reflexivity; exfalso; now apply Hk. }
  rewrite Hhp in Hc. destruct (lost k x) eqn:El.
  - assert (Hng : exists a, nodes_get 3 (p :: stk) = Some a).
    { unfold nodes_get. destruct stk as [|b [|c stk]]; cbn; eauto. }
    destruct Hng as [a Hng]. rewrite Hng in Hc. unfold counted. cbn [andb].
    destruct (nodes_get 4 (p :: stk)) as [[]|]; inversion Hc; subst; apply keep; cbn [negb];
      (split; [reflexivity|]); solve [apply adds_nil|apply mark_reg].
  - cbn [andb]. assert (Hex : has_expr x = true) by (destruct x as [kx sx cx]; unfold is_expr in Hx; cbn in Hx; destruct kx; try discriminate; reflexivity).
    rewrite Hex in Hc. unfold replace_expr_with_stmt_counter in Hc.
    rewrite (surjective_pairing (new_statement _ _)) in Hc. inversion Hc; subst.
    split; [reflexivity|]. split; [apply adds_stmt|]. split; [apply paren_rg|]. split; [now apply paren_proper|reflexivity].
Qed.

Lemma counter_stmt_srg : forall c, match c with CS _ | CF _ => True | _ => False end -> srg (counter_stmt c) = [].
Proof. intros c Hc. apply injected_srg; [reflexivity|]. destruct c; try contradiction; reflexivity. Qed.

Lemma prepend_reg : forall i b b', prepend_to_block (CF i) b = Some b' ->
  rg b' = rg b /\ nspan b' = nspan b /\ (proper b = true -> proper b' = true) /\ ordinary b' = true.
Proof.
  intros i b b' Hb. unfold prepend_to_block in Hb. destruct (block_view b) as [[[[bi bsp] ssp] ss]|] eqn:E1; [|discriminate].
  apply block_view_inv in E1. subst b. inversion Hb; subst. repeat split.
  - cbn [regs]. unfold ignored. cbn [hint_place]. destruct (nx bsp); [reflexivity|]. cbn [flat_map].
    fold regs. rewrite !app_nil_r.
    change (rg (Node KStmts ssp (counter_stmt (CF i) :: ss)) = rg (Node KStmts ssp ss)).
    rewrite !stmts_eq. cbn [flat_map]. now rewrite counter_stmt_srg.
  - intros Hp. apply proper_node in Hp as (A & B & C). cbn [forallb] in C. rewrite andb_true_r in C.
    apply proper_node in C as (D & G & K). cbn [shaped placed] in D, G. cbn. rewrite D, G, K. reflexivity.
Qed.

Lemma plain_stmt : forall sp cs, rg (Node KStmt sp cs) = flat_map rg cs.
Proof. reflexivity. Qed.
Lemma block_regs : forall ssp ss, forallb is_stmt ss = true ->
  flat_map rg [Node KStmts ssp ss] = flat_map srg ss.
Proof. intros. cbn [flat_map]. rewrite app_nil_r. apply stmts_eq. Qed.

Lemma block_parts : forall bi bsp ssp ss, proper (Node (KBlock bi) bsp [Node KStmts ssp ss]) = true ->
  forallb is_stmt ss = true /\ forallb proper ss = true.
Proof.
  intros bi bsp ssp ss Hp. apply proper_node in Hp as (_ & _ & C). cbn [forallb] in C. rewrite andb_true_r in C.
  apply proper_node in C as (D & _ & K). auto.
Qed.

(** A statement that becomes a block *)
Lemma arm_block : forall xsp y bi bsp ssp ss s ss' s', block_view y = Some (bi, bsp, ssp, ss) ->
  proper (Node KStmt xsp [y]) = true -> is_next (ign s) = false -> inner 0 (stack s) ->
  insert_stmts_counter e (visit e n) ss s = Ok (ss', s') ->
  is_next (ign s') = false /\ adds (arm_regs rg (Node KStmt xsp [y])) [] (cov s) (cov s').
Proof.
  intros xsp y bi bsp ssp ss s ss' s' Hv Hp Hn Hin Hi. apply block_view_inv in Hv. subst y.
  apply proper_node in Hp as (_ & _ & C). cbn [forallb] in C. rewrite andb_true_r in C.
  apply block_parts in C as [C1 C2]. apply ins_reg in Hi; auto. destruct Hi as [A B]. split; [assumption|].
  unfold arm_regs. cbn [flat_map]. change (is_block (Node (KBlock bi) bsp [Node KStmts ssp ss])) with true. cbn iota.
  rewrite !app_nil_r, stmts_eq. exact B.
Qed.
Lemma arm_single : forall xsp y s t' s', is_block y = false ->
  proper (Node KStmt xsp [y]) = true -> is_next (ign s) = false -> ordinary (Node KStmt xsp [y]) = true ->
  visit e n VStmt (Node KStmt xsp [y]) s = Ok (t', s') ->
  is_next (ign s') = false /\ adds (arm_regs rg (Node KStmt xsp [y])) [] (cov s) (cov s').
Proof.
  intros xsp y s t' s' Hb Hp Hn Ho Hv. apply IH in Hv; auto; [|now apply ordinary_fit]. destruct Hv as [A B]. split; [assumption|].
  unfold arm_regs. cbn [flat_map]. rewrite Hb. destruct y. exact B.
Qed.

Lemma arm_reg : forall b sp cur x s x' s', is_next (ign s) = false -> is_next cur = false -> proper x = true ->
  ordinary x = true -> inner 0 (stack s) ->
  wrap_with_counter e (visit e n) b (range_of e sp) cur x s = Ok (x', s') ->
  is_next (ign s') = false /\ stack s' = stack s /\ adds (arm_regs rg x) [(b, sp)] (cov s) (cov s').
Proof.
  intros b sp cur x s x' s' Hn Hcur Hp Ho Hin Hw. unfold wrap_with_counter in Hw.
  apply bind_ok in Hw as [[c i] [Ha Hw]]. apply adds_path in Ha.
  apply bind_ok in Hw as [[xsp y] [Hs Hw]]. destruct (stmt_view x) as [[? ?]|] eqn:E1; [|discriminate].
  cbn in Hs. inversion Hs; subst. apply stmt_view_inv in E1. subst x.
  destruct (is_block y) eqn:Hb.
  - apply bind_ok in Hw as [[[[bi bsp] ssp] ss] [Hv Hw]]. apply bind_ok in Hw as [[ss' s2] [Hi Hw]].
    inversion Hw; subst. destruct (block_view y) as [[[[? ?] ?] ?]|] eqn:E2; [|discriminate]. cbn in Hv. inversion Hv; subst.
    pose proof (block_restores _ _ _ _ _ _ Hi) as [Hct _]. unfold context in Hct. cbn [set_cov stack ign] in Hct.
    eapply arm_block in Hi; eauto. destruct Hi as [A B]. split; [assumption|]. split; [congruence|].
    exact (adds_comp _ _ _ _ _ _ _ _ Ha B).
  - apply bind_ok in Hw as [[x1 sv] [Hv Hw]]. inversion Hw; subst. apply arm_single in Hv; auto.
    destruct Hv as [A B]. split; [assumption|]. split; [reflexivity|]. exact (adds_comp _ _ _ _ _ _ _ _ Ha B).
Qed.

Lemma to_block_reg : forall b b', to_block b = Some b' -> proper b = true ->
  rg b' = loop_regs H rg [b] /\ proper b' = true /\ ordinary b' = true.
Proof.
  intros b b' Hb Hp. unfold to_block in Hb. destruct (stmt_view b) as [[sp y]|] eqn:E1; [|discriminate].
  apply stmt_view_inv in E1. subst b. cbn [loop_regs existsb]. rewrite orb_false_r.
  destruct (is_block y) eqn:Hy; inversion Hb; subst.
  { split; [reflexivity|]. split; [assumption|]. destruct y as [ky ysp ycs]. destruct ky; try discriminate; reflexivity. }
  split; [|split; [|reflexivity]].
  - unfold mk. rewrite plain_stmt. cbn [flat_map]. rewrite app_nil_r. cbn [regs]. unfold ignored at 1.
    cbn [hint_place]. rewrite nodummy. cbn [flat_map]. rewrite app_nil_r.
    change (rg (Node KStmts dummy_span [Node KStmt sp [y]]) = if nx sp then [] else rg y ++ []).
    rewrite stmts_eq. cbn [flat_map]. rewrite app_nil_r. reflexivity.
  - unfold mk. remember (Node KStmt sp [y]) as b. cbn. assert (G : is_stmt b = true) by now subst. rewrite G, Hp.
    replace (no_case b) with true by now subst. reflexivity.
Qed.
Lemma block_last_reg : forall cs cs', block_last cs = Some cs' -> forallb proper cs = true -> forallb ordinary cs = true ->
  flat_map rg cs' = loop_regs H rg cs /\ forallb proper cs' = true /\ forallb ordinary cs' = true.
Proof.
  induction cs as [|c cs IHc]; intros cs' Hb Hp Hc; [discriminate|]. cbn in Hp, Hc.
  apply andb_true_iff in Hp as [P1 P2]. apply andb_true_iff in Hc as [C1 C2].
  destruct cs as [|c2 cs].
  - cbn [block_last] in Hb. destruct (to_block c) as [b'|] eqn:Et; [|discriminate]. cbn in Hb. inversion Hb; subst.
    apply to_block_reg in Et as (A & B & C); auto. cbn [flat_map forallb]. rewrite app_nil_r, A, B, C. auto.
  - change (option_map (cons c) (block_last (c2 :: cs)) = Some cs') in Hb.
    destruct (block_last (c2 :: cs)) as [l|] eqn:El; [|discriminate]. cbn in Hb. inversion Hb; subst.
    destruct (IHc l eq_refl P2 C2) as (A & B & C). cbn [flat_map forallb]. rewrite A, B, C, P1, C1. auto.
Qed.

Lemma create_fn_reg : forall ident fn s fn' s', proper fn = true -> create_fn_instrumentation e ident fn s = Ok (fn', s') ->
  let decl := match ident with Some (_, isp) => isp | None => nspan fn end in
  ign s' = ign s /\ adds (fn_reg (option_map fst ident) decl fn) [] (cov s) (cov s') /\
  rg fn' = rg fn /\ proper fn' = true /\ ordinary fn' = true.
Proof.
  intros ident fn s fn' s' Hp Hc. unfold create_fn_instrumentation in Hc. destruct fn as [k fsp cs].
  destruct k; try discriminate. destruct cs as [|p [|d [|b [|ty [|? ?]]]]]; try discriminate.
  destruct (is_none b) eqn:Hb.
  { destruct (new_function _ _ _ _). discriminate. }
  rewrite (surjective_pairing (new_function _ _ _ _)) in Hc.
  apply bind_ok in Hc as [b' [Hpb Hc]]. inversion Hc; subst.
  destruct (prepend_to_block (CF (snd _)) b) as [b1|] eqn:Hpre in Hpb; [|discriminate]. cbn in Hpb. inversion Hpb; subst.
  apply prepend_reg in Hpre as (R1 & R2 & R3 & R4).
  apply proper_node in Hp as (_ & Hcp & Hp). cbn [placed forallb] in Hcp, Hp.
  apply andb_true_iff in Hcp as [C1 Hcp]. apply andb_true_iff in Hcp as [C2 Hcp]. apply andb_true_iff in Hcp as [C3 Hcp].
  apply andb_true_iff in Hp as [P1 Hp]. apply andb_true_iff in Hp as [P2 Hp]. apply andb_true_iff in Hp as [P3 Hp].
  split; [reflexivity|]. split; [|split; [|split]].
  - cbn [cov set_cov]. unfold fn_reg. cbn [nkids nspan]. apply adds_fn.
  - cbn [regs]. unfold ignored. cbn [hint_place flat_map]. now rewrite R1.
  - cbn [proper shaped placed forallb]. rewrite C1, C2, R4, P1, P2, (R3 P3), Hcp, Hp. reflexivity.
  - reflexivity.
Qed.

Lemma last_reg : forall name sp cs d s cs' s', forallb proper cs = true -> forallb ordinary cs = true -> cs <> [] ->
  map_last (accessor_body e name sp s) cs = Ok (cs', s') ->
  ign s' = ign s /\
  adds (if is_none (last cs d) then [] else [RFn (Some name) sp (nspan (last cs d))]) [] (cov s) (cov s') /\
  flat_map rg cs' = flat_map rg cs /\ forallb proper cs' = true /\ forallb ordinary cs' = true.
Proof.
  intros name sp. induction cs as [|c cs IHc]; intros d s cs' s' Hp Hc Hne Hm; [contradiction|].
  cbn in Hp, Hc. apply andb_true_iff in Hp as [P1 P2]. apply andb_true_iff in Hc as [C1 C2].
  destruct cs as [|c2 cs].
  - cbn [map_last] in Hm. apply bind_ok in Hm as [[b' s1] [Ha Hm]]. inversion Hm; subst. clear Hm.
    unfold accessor_body in Ha. cbn [last]. destruct (is_none c) eqn:Hn.
    + inversion Ha; subst. split; [reflexivity|]. split; [apply adds_nil|]. cbn. now rewrite P1, C1.
    + rewrite (surjective_pairing (new_function _ _ _ _)) in Ha. apply bind_ok in Ha as [b1 [Hpb Ha]]. inversion Ha; subst.
      destruct (prepend_to_block (CF (snd _)) c) as [b2|] eqn:Hpre in Hpb; [|discriminate]. cbn in Hpb. inversion Hpb; subst.
      apply prepend_reg in Hpre as (R1 & R2 & R3 & R4).
      split; [reflexivity|]. split; [apply adds_fn|]. cbn [flat_map forallb]. rewrite R1, (R3 P1), R4. auto.
  - change (map_last (accessor_body e name sp s) (c :: c2 :: cs)) with
      (let* (cs'', s) := map_last (accessor_body e name sp s) (c2 :: cs) in Ok (c :: cs'', s)) in Hm.
    apply bind_ok in Hm as [[l s1] [Hl Hm]]. inversion Hm; subst.
    destruct (IHc d s l s' P2 C2 ltac:(discriminate) Hl) as (A & B & C & D & G).
    split; [assumption|]. split; [exact B|]. cbn [flat_map forallb]. rewrite C, D, G, P1, C1. auto.
Qed.

Lemma pick_if : forall A (o : option ignore_scope) (x w : A),
  match o with Some IIf => x | _ => w end = if (match o with Some IIf => true | _ => false end) then x else w.
Proof. intros A [[]|] x w; reflexivity. Qed.
Lemma pick_else : forall A (o : option ignore_scope) (x w : A),
  match o with Some IElse => x | _ => w end = if (match o with Some IElse => true | _ => false end) then x else w.
Proof. intros A [[]|] x w; reflexivity. Qed.

Definition done (R : list reg) (s s' : st) : Prop := is_next (ign s') = false /\ adds R [] (cov s) (cov s').

Lemma done_comp : forall R1 R2 a b c, adds R1 [] a b -> adds R2 [] b c -> adds (R1 ++ R2) [] a c.
Proof. intros R1 R2 a b c A B. exact (adds_comp _ _ _ _ _ _ _ _ A B). Qed.
Lemma done_cons : forall r R2 a b c, adds [r] [] a b -> adds R2 [] b c -> adds (r :: R2) [] a c.
Proof. intros r R2 a b c A B. exact (adds_comp _ _ _ _ _ _ _ _ A B). Qed.

(** The common end of the functions *)
Lemma fn_end : forall v sp k key fn ident s0 r s1, is_instr v = true ->
  forallb proper [key; fn] = true -> forallb ordinary [key; fn] = true -> is_next (ign s0) = false ->
  (let* (fn', s2) := create_fn_instrumentation e ident fn s0 in
   visit_children (visit e n) v (Node k sp [key; fn']) s2) = Ok (r, s1) ->
  is_next (ign s1) = false /\
  adds (fn_reg (option_map fst ident) (match ident with Some (_, isp) => isp | None => nspan fn end) fn ++
        flat_map rg [key; fn]) [] (cov s0) (cov s1).
Proof.
  intros v sp k key fn ident s0 r s1 Hv Hp Hc Hn0 Hf. cbn in Hp, Hc. rewrite andb_true_r in Hp, Hc.
  apply andb_true_iff in Hp as [P1 P2]. apply andb_true_iff in Hc as [C1 C2].
  apply bind_ok in Hf as [[fn' s2] [Hf Hk]]. apply create_fn_reg in Hf as (A & B & C & D & G); auto.
  apply kids_instr in Hk; auto; [|now rewrite A|cbn [forallb]; now rewrite P1, D|cbn [forallb]; now rewrite C1, G].
  destruct Hk as [K1 K2]. split; [assumption|]. cbn [flat_map] in *. rewrite C in K2. eapply done_comp; eassumption.
Qed.

Section Kinds.
Variables (v : vis) (sp : span) (cs : list node) (s : st) (t' : node) (s' : st).
Hypothesis Hv : is_instr v = true.
Hypothesis Hn : is_next (ign s) = false.
Hypothesis Hp : forallb proper cs = true.
Hypothesis Hc : forallb ordinary cs = true.

Lemma k_plain : forall k, visit_children (visit e n) v (Node k sp cs) s = Ok (t', s') -> done (flat_map rg cs) s s'.
Proof. intros k Hk. unfold done. eapply kids_instr; eauto. Qed.

Lemma k_skip : forall nk k p, nx p = false -> visit_skip e (visit e n) nk p v (Node k sp cs) s = Ok (t', s') ->
  done (flat_map rg cs) s s'.
Proof.
  intros nk k p Hx Hk. unfold visit_skip in Hk. apply enter_reg in Hk as (s2 & Hk & E1 & E2); auto.
  apply kids_instr in Hk; auto. destruct Hk as [A B]. unfold done. rewrite E1, E2. auto.
Qed.
Lemma k_vardecl : forall k, nx sp = false -> forallb no_case cs = true -> fits v cs (NVarDecl :: stack s) ->
  enter_exit e NVarDecl sp s (visit_children (visit e n) v (Node k sp cs)) (fun _ => visit_children (visit e n) v (Node k sp cs))
  = Ok (t', s') -> done (flat_map rg cs) s s'.
Proof.
  intros k Hx Hc' Hf Hk. apply enter_reg in Hk as (s2 & Hk & E1 & E2); auto.
  apply kids_fit in Hk; auto. destruct Hk as [A B]. unfold done. rewrite E1, E2. auto.
Qed.

Lemma k_stmts : forallb is_stmt cs = true ->
  visit_stmts e (visit e n) (Node KStmts sp cs) s = Ok (t', s') -> done (flat_map srg cs) s s'.
Proof.
  intros Hs Hk. unfold visit_stmts in Hk. apply bind_ok in Hk as [[ss s1] [Hi Hk]]. inversion Hk; subst.
  apply ins_reg in Hi; auto; exact I.
Qed.

Lemma k_marked : forall nk k sk, nx sp = false ->
  enter_exit e nk sp s sk (fun _ s1 => visit_children (visit e n) v (Node k sp cs) (mark_prepend_stmt_counter e sp s1))
  = Ok (t', s') -> done (RStmt sp :: flat_map rg cs) s s'.
Proof.
  intros nk k sk Hx Hk. apply enter_reg in Hk as (s2 & Hk & E1 & E2); auto.
  apply kids_instr in Hk; auto. destruct Hk as [A B]. unfold done. rewrite E1, E2.
  split; [assumption|]. eapply done_cons; [|exact B].
  match goal with |- adds _ _ _ (cov (mark_prepend_stmt_counter e sp ?s0)) => exact (mark_reg sp s0) end.
Qed.

Lemma k_exprstmt : nx sp = false -> visit_expr_stmt e (visit e n) v (Node KExprStmt sp cs) s = Ok (t', s') ->
  done (rg (Node KExprStmt sp cs)) s s'.
Proof.
  intros Hx Hk. unfold visit_expr_stmt, on_enter, on_enter_with_span in Hk. cbn [ign push nspan nkids] in Hk.
  rewrite Hn in Hk. cbn iota zeta beta in Hk. cbn [regs]. unfold ignored. cbn [hint_place]. rewrite Hx.
  destruct cs as [|x [|? ?]]; try discriminate. rewrite directive_is, own_counter_is. destruct (is_directive_expr x).
  { inversion Hk; subst. split; [exact Hn|apply adds_nil]. }
  rewrite is_next_nx, Hx in Hk. apply bind_ok in Hk as [[t1 s3] [Hk Hr]]. inversion Hr; subst.
  apply kids_instr in Hk; auto; try (destruct (is_injected_counter_expr x); cbn; now rewrite is_next_nx).
  destruct Hk as [_ B]. split; [exact Hn|]. cbn [flat_map] in B. rewrite app_nil_r in B.
  eapply done_comp; [|exact B]. destruct (is_injected_counter_expr x); [apply adds_nil|].
  match goal with |- adds _ _ _ (cov (mark_prepend_stmt_counter e sp ?s0)) => exact (mark_reg sp s0) end.
Qed.

Lemma k_loop : forall nk k, nx sp = false -> visit_for_like e (visit e n) nk v (Node k sp cs) s = Ok (t', s') ->
  done (RStmt sp :: loop_regs H rg cs) s s'.
Proof.
  intros nk k Hx Hk. unfold visit_for_like in Hk. cbn [nspan nkids nkind] in Hk.
  apply enter_reg in Hk as (s2 & Hk & E1 & E2); auto. apply bind_ok in Hk as [cs' [Hb Hk]].
  destruct (block_last cs) as [l|] eqn:El; [|discriminate]. cbn in Hb. inversion Hb; subst.
  apply block_last_reg in El as (A & B & C); auto.
  apply kids_instr in Hk; auto. destruct Hk as [_ D]. unfold done. rewrite E1, E2.
  split; [assumption|]. rewrite A in D. eapply done_cons; [|exact D].
  match goal with |- adds _ _ _ (cov (mark_prepend_stmt_counter e sp ?s0)) => exact (mark_reg sp s0) end.
Qed.

Lemma k_cond : nx sp = false -> visit_cond_expr e (visit e n) v (Node KCond sp cs) s = Ok (t', s') ->
  done (rg (Node KCond sp cs)) s s'.
Proof.
  intros Hx Hk. unfold visit_cond_expr in Hk. cbn [nspan nkids nkind] in Hk.
  apply enter_reg in Hk as (s2 & Hk & E1 & E2); auto.
  destruct cs as [|test [|con [|alt [|? ?]]]]; try discriminate.
  rewrite (surjective_pairing (new_branch _ _ _ _)) in Hk.
  cbn in Hp, Hc. apply andb_true_iff in Hp as [P1 Hp']. apply andb_true_iff in Hp' as [P2 Hp']. rewrite andb_true_r in Hp'.
  apply andb_true_iff in Hc as [C1 Hc']. apply andb_true_iff in Hc' as [C2 Hc']. rewrite andb_true_r in Hc'.
  assert (One : forall x b s0 x' s0', proper x = true -> ordinary x = true -> is_next (ign s0) = false ->
    (if is_next (H (nspan x)) then Ok (x, s0) else replace_expr_with_branch_counter e x b s0) = Ok (x', s0') ->
    is_next (ign s0') = false /\ adds [] (map (pair b) (filter (fun p => negb (nx p)) [nspan x])) (cov s0) (cov s0') /\
    rg x' = rg x /\ proper x' = true /\ ordinary x' = true).
  { intros x b s0 x' s0' Px Cx Hn0 Hr. rewrite is_next_nx in Hr. cbn [filter]. destruct (nx (nspan x)).
    - inversion Hr; subst. split; [assumption|]. split; [apply adds_nil|auto].
    - unfold replace_expr_with_branch_counter in Hr. destruct (is_expr x) eqn:Ex; [|discriminate]. cbn [negb] in Hr.
      apply bind_ok in Hr as [[c i] [Ha Hr]]. inversion Hr; subst. split; [assumption|]. split; [eapply adds_path; eassumption|].
      split; [apply paren_rg|]. split; [now apply paren_proper|reflexivity]. }
  apply bind_ok in Hk as [[con' s3] [H1 Hk]]. apply bind_ok in Hk as [[alt' s4] [H2 Hk]].
  apply One in H1 as (A1 & A2 & A3 & A4 & A5); auto.
  apply One in H2 as (B1 & B2 & B3 & B4 & B5); auto.
  apply kids_instr in Hk; auto; [|cbn [forallb]; now rewrite P1, A4, B4|cbn [forallb]; now rewrite C1, A5, B5].
  destruct Hk as [_ D]. unfold done. rewrite E1, E2. split; [assumption|].
  cbn [regs]. unfold ignored. cbn [hint_place]. rewrite Hx. cbn [flat_map] in D. rewrite A3, B3 in D.
  eapply adds_branch; [apply surjective_pairing|].
  change (flat_map rg [test; con; alt]) with ([] ++ [] ++ flat_map rg [test; con; alt]).
  replace (map (pair _) (filter (fun p => negb (nx p)) [nspan con; nspan alt])) with
    (map (pair (snd (new_branch CondExpr (range_of e sp) false (cov s)))) (filter (fun p => negb (nx p)) [nspan con]) ++
     map (pair (snd (new_branch CondExpr (range_of e sp) false (cov s)))) (filter (fun p => negb (nx p)) [nspan alt]) ++ []).
  - eapply adds_comp; [exact A2|]. eapply adds_comp; [exact B2|exact D].
  - rewrite app_nil_r, <- map_app. cbn [filter]. destruct (nx (nspan con)), (nx (nspan alt)); reflexivity.
Qed.

Lemma is_ignored_skipped : forall name, is_ignored_method e name = skipped_name M name.
Proof. reflexivity. Qed.

Lemma k_fn_decl : ignored H KFnDecl sp cs = false -> visit_fn_decl e (visit e n) v (Node KFnDecl sp cs) s = Ok (t', s') ->
  done (rg (Node KFnDecl sp cs)) s s'.
Proof.
  intros Hx Hk. cbn [regs]. rewrite Hx. unfold visit_fn_decl in Hk. cbn [nspan nkids nkind] in Hk.
  destruct cs as [|id [|fn [|? ?]]]; try discriminate. unfold ignored in Hx. cbn in Hx.
  apply enter_reg in Hk as (s2 & Hk & E1 & E2); auto. unfold done. rewrite E1, E2. split; [assumption|].
  apply bind_ok in Hk as [ident [Hi Hk]]. destruct (ident_view id) as [[name isp]|]; [|discriminate]. cbn in Hi. inversion Hi; subst ident.
  eapply fn_end in Hk; eauto. destruct Hk as [_ B]. exact B.
Qed.
Lemma k_fn_expr : ignored H KFnExpr sp cs = false -> visit_fn_expr e (visit e n) v (Node KFnExpr sp cs) s = Ok (t', s') ->
  done (rg (Node KFnExpr sp cs)) s s'.
Proof.
  intros Hx Hk. cbn [regs]. rewrite Hx. unfold visit_fn_expr in Hk. cbn [nspan nkids nkind] in Hk.
  destruct cs as [|id [|fn [|? ?]]]; try discriminate. unfold ignored in Hx. cbn in Hx.
  apply enter_reg in Hk as (s2 & Hk & E1 & E2); auto. unfold done. rewrite E1, E2. split; [assumption|].
  destruct (ident_view id) as [[name isp]|].
  - rewrite is_ignored_skipped in Hk. destruct (skipped_name M name).
    { inversion Hk; subst. apply adds_nil. }
    eapply fn_end in Hk; eauto. destruct Hk as [_ B]. exact B.
  - eapply fn_end in Hk; eauto. destruct Hk as [_ B]. exact B.
Qed.
Lemma k_class_method : nx sp = false -> visit_class_method e (visit e n) v (Node KClassMethod sp cs) s = Ok (t', s') ->
  done (rg (Node KClassMethod sp cs)) s s'.
Proof.
  intros Hx Hk. cbn [regs]. unfold ignored. cbn [hint_place]. rewrite Hx. unfold visit_class_method in Hk. cbn [nspan nkids nkind] in Hk.
  apply enter_reg in Hk as (s2 & Hk & E1 & E2); auto. unfold done. rewrite E1, E2. split; [assumption|].
  destruct cs as [|id [|fn [|? ?]]]; try discriminate.
  destruct (prop_ident_view id) as [[name isp]|].
  - rewrite is_ignored_skipped in Hk. destruct (skipped_name M name).
    { inversion Hk; subst. apply adds_nil. }
    eapply fn_end in Hk; eauto. destruct Hk as [_ B]. exact B.
  - inversion Hk; subst. apply adds_nil.
Qed.
Lemma k_method_prop : ignored H KMethodProp sp cs = false ->
  visit_method_prop e (visit e n) v (Node KMethodProp sp cs) s = Ok (t', s') ->
  done (rg (Node KMethodProp sp cs)) s s'.
Proof.
  intros Hx Hk. cbn [regs]. rewrite Hx. unfold visit_method_prop in Hk. cbn [nspan nkids nkind] in Hk.
  destruct cs as [|id [|fn [|? ?]]]; try discriminate. unfold ignored in Hx. cbn in Hx.
  apply enter_reg in Hk as (s2 & Hk & E1 & E2); auto. unfold done. rewrite E1, E2. split; [assumption|].
  destruct (prop_ident_view id) as [[name isp]|].
  - rewrite is_ignored_skipped in Hk. destruct (skipped_name M name).
    { inversion Hk; subst. apply adds_nil. }
    eapply fn_end in Hk; eauto. destruct Hk as [_ B]. exact B.
  - eapply fn_end in Hk; eauto. destruct Hk as [_ B]. exact B.
Qed.

Lemma k_accessor : forall nk k, k = KGetter \/ k = KSetter -> nx sp = false ->
  visit_accessor e (visit e n) nk v (Node k sp cs) s = Ok (t', s') -> done (rg (Node k sp cs)) s s'.
Proof.
  intros nk k Hkk Hx Hk.
  assert (G : rg (Node k sp cs) =
    match cs with
    | key :: _ =>
        let body := last cs key in
        let own name decl := if is_none body then [] else [RFn (Some name) decl (nspan body)] in
        match prop_ident_view key with
        | Some (name, isp) => if skipped_name M name then [] else own name isp ++ flat_map rg cs
        | None => own "anonymous"%string sp ++ flat_map rg cs
        end
    | [] => []
    end).
  { destruct Hkk as [-> | ->]; cbn [regs]; unfold ignored; cbn [hint_place]; rewrite Hx; reflexivity. }
  rewrite G. clear G Hkk. unfold visit_accessor in Hk. cbn [nspan nkids nkind] in Hk.
  apply enter_reg in Hk as (s2 & Hk & E1 & E2); auto. unfold done. rewrite E1, E2. split; [assumption|].
  destruct cs as [|key rest]; [discriminate|]. cbv zeta.
  assert (Go : forall name decl s0 r s1, is_next (ign s0) = false ->
    (let* (l, s3) := map_last (accessor_body e name decl s0) (key :: rest) in
     visit_children (visit e n) v (Node k sp l) s3) = Ok (r, s1) ->
    adds ((if is_none (last (key :: rest) key) then [] else [RFn (Some name) decl (nspan (last (key :: rest) key))]) ++
          flat_map rg (key :: rest)) [] (cov s0) (cov s1)).
  { intros name decl s0 r s1 Hn0 Hf. apply bind_ok in Hf as [[l s3] [Hl Hf]].
    apply (last_reg name decl (key :: rest) key) in Hl as (A & B & C & D & G); auto; [|discriminate].
    apply kids_instr in Hf; auto; [|now rewrite A]. destruct Hf as [_ Hf]. rewrite C in Hf. eapply done_comp; eassumption. }
  destruct (prop_ident_view key) as [[name isp]|].
  - rewrite is_ignored_skipped in Hk. destruct (skipped_name M name).
    { inversion Hk; subst. apply adds_nil. }
    apply Go in Hk; [exact Hk|cbn; now rewrite is_next_nx].
  - apply Go in Hk; [exact Hk|cbn; now rewrite is_next_nx].
Qed.

Lemma k_arrow : nx sp = false -> visit_arrow_expr e (visit e n) v (Node KArrow sp cs) s = Ok (t', s') ->
  done (rg (Node KArrow sp cs)) s s'.
Proof.
  intros Hx Hk. cbn [regs]. unfold ignored. cbn [hint_place]. rewrite Hx. unfold visit_arrow_expr in Hk. cbn [nspan nkids nkind] in Hk.
  apply enter_reg in Hk as (s2 & Hk & E1 & E2); auto. unfold done. rewrite E1, E2. split; [assumption|].
  destruct cs as [|params [|b [|ty [|? ?]]]]; try discriminate.
  rewrite (surjective_pairing (new_function _ _ _ _)) in Hk.
  cbn in Hp, Hc. apply andb_true_iff in Hp as [P1 Hp']. apply andb_true_iff in Hp' as [P2 _].
  apply andb_true_iff in Hc as [C1 Hc']. apply andb_true_iff in Hc' as [C2 _].
  destruct b as [bk bs bc] eqn:Eb. rewrite <- Eb in *.
  destruct (is_expr b) eqn:Ex.
  - apply bind_ok in Hk as [[ss' s3] [Hi Hk]]. inversion Hk; subst s2. clear Hk.
    assert (Hb : nspan b = bs) by now rewrite Eb. rewrite Hb in Hi.
    apply ins_reg in Hi; [|cbn; now rewrite is_next_nx| |reflexivity|exact I].
    + destruct Hi as [_ B]. cbn [flat_map] in B. rewrite counter_stmt_srg in B by exact I. rewrite app_nil_r in B. cbn [app] in B.
      eapply done_cons; [apply adds_fn|].
      replace (srg (Node KStmt bs [Node KReturn bs [b]])) with (if nx bs then [] else RStmt bs :: rg b) in B; [exact B|].
      unfold srg. cbn [nspan nkids flat_map]. destruct (nx bs) eqn:Hb2; [reflexivity|]. cbn [regs]. unfold ignored. cbn [hint_place].
      rewrite Hb2. cbn [flat_map]. now rewrite !app_nil_r.
    + cbn -[ordinary proper]. cbn [proper shaped placed forallb]. rewrite P2, C2. reflexivity.
  - apply bind_ok in Hk as [[[[bi bsp] ssp] ss] [Hb Hk]]. destruct (block_view b) as [[[[? ?] ?] ?]|] eqn:Ebv; [|discriminate].
    cbn in Hb. inversion Hb; subst. clear Hb. apply block_view_inv in Ebv. inversion Ebv; subst. clear Ebv.
    apply bind_ok in Hk as [[ss' s3] [Hi Hk]]. inversion Hk; subst s2. clear Hk. apply block_parts in P2 as [Q1 Q2].
    apply ins_reg in Hi; auto; try exact I. destruct Hi as [_ B].
    eapply done_cons; [apply adds_fn|]. rewrite block_regs by assumption. exact B.
Qed.

Lemma k_init : forall nk k, match k with KVarDeclarator => nk = NVarDeclarator | KClassProp | KPrivateProp => nk <> NVarDeclarator | _ => False end ->
  shaped k cs = true -> nx sp = false -> visit_initialized e (visit e n) nk v (Node k sp cs) s = Ok (t', s') ->
  done (init_regs (counted (nk :: stack s)) k cs) s s'.
Proof.
  intros nk k Hkk Hs Hx Hk. unfold visit_initialized in Hk. cbn [nspan nkids nkind] in Hk.
  apply enter_reg in Hk as (s2 & Hk & E1 & E2); auto. unfold done. rewrite E1, E2. split; [assumption|].
  destruct cs as [|name [|x rest]]; try discriminate. apply bind_ok in Hk as [[x' s3] [Hi Hk]].
  cbn in Hp, Hc. apply andb_true_iff in Hp as [P1 Hp']. apply andb_true_iff in Hp' as [P2 P3].
  apply andb_true_iff in Hc as [C1 Hc']. apply andb_true_iff in Hc' as [C2 C3].
  assert (A : is_next (ign s3) = false /\
    adds (if is_none x || (lost k x && negb (counted (nk :: stack s))) then [] else [RStmt (nspan x)]) [] (cov s) (cov s3) /\
    rg x' = rg x /\ proper x' = true /\ ordinary x' = true).
  { destruct (is_none x) eqn:Hno.
    - inversion Hi; subst. split; [cbn; now rewrite is_next_nx|]. split; [apply adds_nil|auto].
    - eapply cover_reg with (k := k) (name := name) (rest := rest) in Hi; eauto.
      + destruct Hi as (A1 & A2 & A3). split; [rewrite A1; cbn; now rewrite is_next_nx|]. split; [exact A2|exact A3].
      + cbn. discriminate. }
  destruct A as (A1 & A2 & A3 & A4 & A5).
  apply kids_instr in Hk; auto; [|cbn [forallb]; now rewrite P1, A4|cbn [forallb]; now rewrite C1, A5].
  destruct Hk as [_ B]. unfold init_regs. cbn [flat_map] in *. rewrite A3 in B. eapply done_comp; eassumption.
Qed.

Lemma k_if : nx sp = false -> visit_if_stmt e (visit e n) v (Node KIf sp cs) s = Ok (t', s') ->
  done (rg (Node KIf sp cs)) s s'.
Proof.
  intros Hx Hk. cbn [regs]. unfold ignored. cbn [hint_place]. rewrite Hx. unfold visit_if_stmt in Hk. cbn [nspan nkids nkind] in Hk.
  apply enter_reg in Hk as (s2 & Hk & E1 & E2); auto. unfold done. rewrite E1, E2. split; [assumption|].
  destruct cs as [|test [|con [|alt [|? ?]]]]; try discriminate.
  cbn in Hp, Hc. apply andb_true_iff in Hp as [P1 Hp']. apply andb_true_iff in Hp' as [P2 P3]. rewrite andb_true_r in P3.
  apply andb_true_iff in Hc as [C1 Hc']. apply andb_true_iff in Hc' as [C2 C3]. rewrite andb_true_r in C3.
  rewrite (surjective_pairing (new_branch _ _ _ _)) in Hk.
  set (b := snd (new_branch _ _ _ _)) in Hk. cbv zeta.
  apply bind_ok in Hk as [[con' s4] [H1 Hk]]. apply bind_ok in Hk as [[alt' s5] [H2 Hk]].
  apply bind_ok in Hk as [[test' s6] [H3 Hk]]. inversion Hk; subst s2. clear Hk.
  assert (Hcur : is_next (H sp) = false) by now rewrite is_next_nx.
  rewrite pick_if in H1. rewrite pick_else in H2.
  set (i := match H sp with Some IIf => true | _ => false end) in *.
  set (el := match H sp with Some IElse => true | _ => false end) in *.
  match type of H1 with context[set_cov (fst (new_branch BIf _ _ (cov ?a))) _] => set (s3 := a) in H1, b end.
  assert (A : is_next (ign s4) = false /\ stack s4 = NIfStmt :: stack s /\ adds (if i then [] else arm_regs rg con) (map (pair b) (if i then [] else [sp]))
     (fst (new_branch BIf (range_of e sp) false (cov s3))) (cov s4)).
  { destruct i.
    - inversion H1; subst. split; [exact Hcur|]. split; [reflexivity|apply adds_nil].
    - eapply arm_reg in H1; [exact H1|exact Hcur|exact Hcur|assumption|assumption|exact I]. }
  destruct A as (A1 & A3 & A2).
  assert (B : is_next (ign s5) = false /\ adds (if el then [] else arm_regs rg alt) (map (pair b) (if el then [] else [sp])) (cov s4) (cov s5)).
  { destruct el.
    - inversion H2; subst. split; [exact A1|apply adds_nil].
    - eapply arm_reg in H2; [|exact A1|exact Hcur|destruct (is_absent alt); [reflexivity|assumption]
        |destruct (is_absent alt); [reflexivity|assumption]|rewrite A3; exact I].
      destruct H2 as (H2a & _ & H2b). assert (H2 := conj H2a H2b). clear H2a H2b.
      destruct (is_absent alt) eqn:Ea; [|exact H2]. destruct alt as [ka spa ca]. unfold is_absent in Ea.
      destruct ka; try discriminate. destruct ca; try discriminate. exact H2. }
  destruct B as [B1 B2].
  apply IH in H3; auto; [|now apply ordinary_fit].
  destruct H3 as [_ D].
  assert (D' : adds (rg test) [] (cov s5) (cov s6)).
  { apply ordinary_free in C1 as [C1 _]. now rewrite Rv1, Uv1 in D by assumption. }
  eapply done_cons; [exact (mark_reg sp (mkSt (cov s) (before s) (NIfStmt :: stack s) (H sp)))|].
  eapply adds_branch; [apply surjective_pairing|].
  rewrite map_app. rewrite <- (app_nil_r (map (pair _) (if el then [] else [sp]))).
  eapply adds_comp; [exact A2|]. eapply adds_comp; [exact B2|exact D'].
Qed.

Lemma k_with : nx sp = false -> visit_with_stmt e (visit e n) v (Node KWith sp cs) s = Ok (t', s') ->
  done (rg (Node KWith sp cs)) s s'.
Proof.
  intros Hx Hk. cbn [regs]. unfold ignored. cbn [hint_place]. rewrite Hx. unfold visit_with_stmt in Hk. cbn [nspan nkids nkind] in Hk.
  apply enter_reg in Hk as (s2 & Hk & E1 & E2); auto. unfold done. rewrite E1, E2. split; [assumption|].
  destruct cs as [|obj [|body [|? ?]]]; try discriminate.
  cbn in Hp. apply andb_true_iff in Hp as [P1 P2]. rewrite andb_true_r in P2.
  apply bind_ok in Hk as [[wsp y] [Hs Hk]]. destruct (stmt_view body) as [[? ?]|] eqn:Es; [|discriminate].
  cbn in Hs. inversion Hs; subst. apply stmt_view_inv in Es. subst body.
  assert (Hcur : is_next (H sp) = false) by now rewrite is_next_nx.
  eapply done_cons; [exact (mark_reg sp (mkSt (cov s) (before s) (NWithStmt :: stack s) (H sp)))|].
  destruct (is_block y) eqn:Hb.
  - apply bind_ok in Hk as [[[[bi bsp] ssp] ss] [Hbv Hk]]. apply bind_ok in Hk as [[ss' s3] [Hi Hk]].
    inversion Hk; subst. destruct (block_view y) as [[[[? ?] ?] ?]|] eqn:E3; [|discriminate]. cbn in Hbv. inversion Hbv; subst.
    eapply arm_block in Hi; eauto; [apply Hi|exact I].
  - apply bind_ok in Hk as [[x1 sv] [Hr Hk]]. inversion Hk; subst. apply arm_single in Hr; auto; [apply Hr|].
    cbn in Hc. apply andb_true_iff in Hc as [_ Hc']. apply andb_true_iff in Hc' as [Hc' _]. exact Hc'.
Qed.

Lemma k_bin : forall op, nx sp = false ->
  visit_bin_expr e (visit e n) v op (new_logical_branch e sp) (Node (KBin op) sp cs) s = Ok (t', s') ->
  done (rg (Node (KBin op) sp cs)) s s'.
Proof.
  intros op Hx Hk. cbn [regs]. unfold ignored. cbn [hint_place]. rewrite Hx.
  unfold visit_bin_expr, on_enter_with_span in Hk. cbn [nspan nkids nkind] in Hk. rewrite Hn in Hk.
  cbn iota zeta beta in Hk. rewrite is_next_nx, Hx in Hk. unfold done.
  rewrite short_circuit_op. destruct (is_logical_op op).
  - destruct cs as [|l [|r [|? ?]]]; try discriminate.
    cbn in Hp. apply andb_true_iff in Hp as [P1 P2]. rewrite andb_true_r in P2.
    unfold new_logical_branch in Hk. rewrite (surjective_pairing (new_branch _ _ _ _)) in Hk.
    apply bind_ok in Hk as [[l' s3] [H1 Hk]]. apply bind_ok in Hk as [[r' s4] [H2 Hk]]. inversion Hk; subst.
    apply wrap_reg in H1 as [A1 A2]; auto; try (cbn; now rewrite is_next_nx). apply wrap_reg in H2 as [B1 B2]; auto.
    split; [assumption|]. eapply adds_branch; [apply surjective_pairing|]. cbn [flat_map]. rewrite !app_nil_r, map_app.
    replace (match l with Node _ _ xc => if closed_operand H rl l then [] else flat_map rg xc end) with (Wr v l)
      by (destruct l, v; try discriminate Hv; reflexivity).
    replace (match r with Node _ _ xc => if closed_operand H rl r then [] else flat_map rg xc end) with (Wr v r)
      by (destruct r, v; try discriminate Hv; reflexivity).
    eapply adds_comp; [exact A2|exact B2].
  - apply bind_ok in Hk as [[t1 s2] [Hk Hr]]. inversion Hr; subst. apply kids_instr in Hk; auto; try (cbn; now rewrite is_next_nx).
    destruct Hk as [_ B]. split; [exact Hn|exact B].
Qed.

Lemma k_assign : nx sp = false -> visit_assign_pat e (visit e n) v (Node KAssignPat sp cs) s = Ok (t', s') ->
  done (rg (Node KAssignPat sp cs)) s s'.
Proof.
  intros Hx Hk. cbn [regs]. unfold ignored. cbn [hint_place]. rewrite Hx. unfold visit_assign_pat in Hk. cbn [nspan nkids nkind] in Hk.
  apply enter_reg in Hk as (s2 & Hk & E1 & E2); auto. unfold done. rewrite E1, E2. split; [assumption|].
  destruct cs as [|l [|r [|? ?]]]; try discriminate.
  cbn in Hp. apply andb_true_iff in Hp as [P1 P2]. rewrite andb_true_r in P2.
  rewrite (surjective_pairing (new_branch _ _ _ _)) in Hk. apply bind_ok in Hk as [[r' s3] [H1 Hk]]. inversion Hk; subst.
  apply wrap_reg in H1 as [A1 A2]; auto; try (cbn; now rewrite is_next_nx).
  assert (G : Wr v r = match r with Node _ _ rc => if closed_operand H rl r then [] else flat_map rg rc end)
    by (destruct r, v; try discriminate Hv; reflexivity).
  rewrite G in A2. destruct r as [rk rs rc]. eapply adds_branch; [apply surjective_pairing|]. exact A2.
Qed.
End Kinds.

Lemma switch_fits : forall b cs stk, placed KSwitch cs = true -> fits (VSwitch b) cs stk.
Proof.
  intros b cs stk Hp. destruct cs as [|d [|l [|? ?]]]; try discriminate. cbn [placed] in Hp. apply andb_true_iff in Hp as [P1 P2].
  split; [now apply ordinary_fit|]. intros stk' _. split; [|intros; exact I]. split; [reflexivity|]. intros _.
  apply negb_true_iff in P2. apply orb_false_iff in P2 as [P2 P3]. apply orb_false_iff in P2 as [P2 P4].
  apply orb_false_iff in P2 as [P2 P5]. apply orb_false_iff in P2 as [_ P6]. unfold free. rewrite P3, P4, P5, P6.
  split; [discriminate|]. split; [discriminate|reflexivity].
Qed.
Lemma k_switch : forall sp cs s t' s', is_next (ign s) = false -> forallb proper cs = true -> placed KSwitch cs = true -> nx sp = false ->
  visit_switch_stmt e (visit e n) (Node KSwitch sp cs) s = Ok (t', s') -> done (rg (Node KSwitch sp cs)) s s'.
Proof.
  intros sp cs s t' s' Hn Hp Hpl Hx Hk. cbn [regs]. unfold ignored. cbn [hint_place]. rewrite Hx.
  unfold visit_switch_stmt in Hk. cbn [nspan nkids nkind] in Hk.
  apply enter_reg in Hk as (s2 & Hk & E1 & E2); auto. unfold done. rewrite E1, E2. split; [assumption|].
  rewrite (surjective_pairing (new_branch _ _ _ _)) in Hk. apply bind_ok in Hk as [[t1 sv] [Hk Hr]]. inversion Hr; subst s2.
  cbn [visit_children] in Hk. apply bind_ok in Hk as [[cs' s3] [Hk Hr']]. inversion Hr'; subst s3.
  apply kids_reg in Hk; auto; [|now apply switch_fits]. destruct Hk as [_ B].
  eapply done_cons; [exact (mark_reg sp (mkSt (cov s) (before s) (NSwitchStmt :: stack s) (H sp)))|].
  eapply adds_branch; [apply surjective_pairing|]. rewrite Rv_instr in B by reflexivity.
  match type of B with context [VSwitch ?b] => set (b0 := b) in B end.
  replace (flat_map (Uv (VSwitch b0)) cs) with (map (pair b0) (flat_map cp cs)) in B; [exact B|].
  clearbody b0. clear. induction cs as [|t ts IHt]; [reflexivity|]. cbn. rewrite map_app, IHt. reflexivity.
Qed.

Lemma k_case : forall b sp cs s t' s', is_next (ign s) = false -> forallb proper cs = true -> forallb ordinary cs = true ->
  nx sp = false -> visit_switch_case e (visit e n) b (Node KSwitchCase sp cs) s = Ok (t', s') ->
  is_next (ign s') = false /\ adds (flat_map rg cs) [(b, sp)] (cov s) (cov s').
Proof.
  intros b sp cs s t' s' Hn Hp Hc Hx Hk. unfold visit_switch_case in Hk. cbn [nspan nkids nkind] in Hk.
  apply enter_reg in Hk as (s2 & Hk & E1 & E2); auto. rewrite E1, E2. split; [assumption|].
  apply bind_ok in Hk as [[c i] [Ha Hk]]. apply adds_path in Ha.
  apply bind_ok in Hk as [[t1 s3] [Hk Hr]]. apply kids_instr in Hk; auto. destruct Hk as [_ B].
  assert (s2 = s3) as ->.
  { destruct (nkids t1) as [|a [|b0 [|? ?]]]; try discriminate. apply bind_ok in Hr as [[ssp ss] [_ Hr]]. now inversion Hr. }
  exact (adds_comp _ _ _ _ _ _ _ _ Ha B).
Qed.

Lemma site_place : forall v k sp cs p, is_instr v = true -> fitv v (Node k sp cs) = true ->
  hint_place k sp cs = Some p -> hint_site v (Node k sp cs) = Some p.
Proof.
  intros v k sp cs p Hi Hf Hh. destruct v; try discriminate Hi; destruct k; try discriminate Hh; try exact Hh; discriminate Hf.
Qed.

Lemma list_Uv : forall v sp cs, is_instr v = true -> existsb caselist cs = false -> flat_map (Uv v) cs = Uv v (Node KList sp cs).
Proof.
  intros v sp cs Hi Hc.
  assert (G : flat_map cp cs = flat_map (cpath H) cs).
  { induction cs as [|c cs IHc]; [reflexivity|]. cbn in Hc. apply orb_false_iff in Hc as [C1 C2]. cbn [flat_map].
    rewrite IHc by assumption. f_equal. destruct c as [k csp ccs]. destruct k; try reflexivity.
    rewrite no_case_cp; [reflexivity|]. unfold no_case. now rewrite C1. }
  destruct v; try discriminate Hi.
  - clear. induction cs; auto.
  - clear. induction cs; auto.
  - cbn [Uv]. unfold cpaths at 1. cbn [nkind nkids]. rewrite <- G. clear. induction cs as [|t ts IHt]; [reflexivity|].
    cbn. rewrite map_app, IHt. reflexivity.
Qed.

Lemma existsb_in : forall A (f : A -> bool) l x, existsb f l = false -> In x l -> f x = false.
Proof.
  intros A f l x Hf Hx. destruct (f x) eqn:E1; [|reflexivity]. rewrite <- Hf. symmetry. apply existsb_exists. eauto.
Qed.
Lemma list_fits : forall v sp cs stk, placed KList cs = true -> fitv v (Node KList sp cs) = true ->
  (is_instr v = true -> existsb lost_init cs = true -> inner 2 stk) -> fits v cs stk.
Proof.
  intros v sp cs stk Hp Hf Hin. cbn [placed] in Hp. apply andb_true_iff in Hp as [Hp Hs]. apply negb_true_iff in Hp.
  assert (Hn : forallb (fitv v) cs = true).
  { apply forallb_forall. intros x Hx. pose proof (existsb_in _ _ _ _ Hp Hx) as C1. cbn beta in C1.
    apply orb_false_iff in C1 as [C1 _]. apply orb_false_iff in C1 as [C1 _]. apply orb_false_iff in C1 as [C1 _].
    assert (G : no_case (Node KList sp cs) = true -> no_case x = true).
    { unfold no_case. intros G. apply negb_true_iff, orb_false_iff in G as [_ G]. unfold caselist in G. cbn [nkind nkids] in G.
      rewrite C1. now rewrite (existsb_in _ _ _ _ G Hx). }
    unfold fitv in *. destruct v; auto. }
  clear Hf. revert stk Hin. induction cs as [|c cs IHc]; intros stk Hin; [exact I|].
  cbn in Hp, Hs, Hn. apply orb_false_iff in Hp as [P1 P2]. apply andb_true_iff in Hs as [S1 S2]. apply andb_true_iff in Hn as [N1 N2].
  apply orb_false_iff in P1 as [P1 P3]. apply orb_false_iff in P1 as [P1 P4]. apply orb_false_iff in P1 as [_ P5].
  split.
  - split; [assumption|]. intros Hi. unfold free. rewrite P3, P4, P5, orb_false_r. split; [|split; [discriminate|reflexivity]].
    intros Hl. apply Hin; auto. cbn. now rewrite Hl.
  - intros stk' Hst. apply IHc; auto. intros Hi Hl. rewrite Hl, orb_false_r in S1. rewrite Hst; auto. apply Hin; auto. cbn.
    now rewrite Hl, orb_true_r.
Qed.

Lemma decl_fits : forall v k0 sp cs stk, shaped (KVarDecl k0) cs = true -> forallb no_case cs = true ->
  (lost_decl (Node (KVarDecl k0) sp cs) = true -> inner 1 stk) -> fits v cs (NVarDecl :: stk).
Proof.
  intros v k0 sp cs stk Hs Hc Hl. cbn [shaped] in Hs. destruct cs as [|[k lsp ls] [|? ?]]; try discriminate Hs.
  unfold is_list in Hs. cbn [nkind] in Hs. destruct k; try discriminate Hs. cbn in Hc. rewrite andb_true_r in Hc.
  split; [|intros; exact I]. split; [unfold fitv; now destruct v|]. intros _. split; [|split; [discriminate|reflexivity]].
  intros Hl'. apply Hl. unfold lost_decl. cbn [nkind nkids existsb]. unfold lost_init in Hl'. cbn [nkind orb] in Hl'.
  now rewrite Hl'.
Qed.
Lemma stmt_ordinary : forall sp cs, placed KStmt cs = true -> lost_stmt (Node KStmt sp cs) = false -> forallb ordinary cs = true.
Proof.
  intros sp cs Hp Hl. destruct cs as [|c [|? ?]]; try exact Hp. cbn in Hp |- *. unfold lost_stmt in Hl. cbn in Hl.
  rewrite orb_false_r in Hl. apply andb_true_iff in Hp as [P1 P2]. apply negb_true_iff in P2. apply orb_false_iff in P2 as [P2 P3].
  apply orb_false_iff in P2 as [P2 P4]. unfold ordinary. now rewrite P1, P2, P3, P4, Hl.
Qed.

Lemma init_rg : forall c k sp cs, match k with KVarDeclarator | KClassProp | KPrivateProp => True | _ => False end ->
  nx sp = false -> (lost_init (Node k sp cs) = true -> c = false) -> rg (Node k sp cs) = init_regs c k cs.
Proof.
  intros c k sp cs Hk Hx Hl. cbn [regs]. replace (ignored H k sp cs) with false
    by (destruct k; try contradiction; unfold ignored; cbn; now rewrite Hx).
  destruct k; try contradiction; unfold init_regs; destruct cs as [|a [|x cs]]; try reflexivity.
  f_equal. unfold lost_init in Hl. cbn [nkind nkids] in Hl. destruct (is_none x); [reflexivity|]. cbn in Hl |- *.
  destruct (with_function x && negb (with_block x)); [|reflexivity]. now rewrite Hl.
Qed.

Lemma step_instr : forall v t s t' s', is_instr v = true -> is_next (ign s) = false -> proper t = true -> fit v t (stack s) ->
  visit e (S n) v t s = Ok (t', s') -> is_next (ign s') = false /\ adds (Rv v t) (Uv v t) (cov s) (cov s').
Proof.
  intros v t s t' s' Hv Hn Hpr [Hf Hfr] Hk. specialize (Hfr Hv). destruct Hfr as (Fr1 & Fr2 & Fr3). rewrite Rv1 by assumption. destruct t as [k sp cs].
  destruct (ignored H k sp cs) eqn:Hi.
  { rewrite rg_eq by assumption. unfold ignored in Hi. destruct (hint_place k sp cs) as [p|] eqn:Hh; [|discriminate].
    apply nx_hint in Hi as Hi'. destruct (ignore_next e (S n) v (Node k sp cs) s t' s' p) as [_ ->]; auto.
    - now apply site_place.
    - now apply proper_good.
    - split; [assumption|]. replace (Uv v (Node k sp cs)) with (@nil (N * span)); [apply adds_nil|].
      destruct v; try reflexivity; try discriminate Hv. destruct k; try discriminate Hh; try reflexivity.
      inversion Hh; subst. cbn. unfold cpath. cbn. now rewrite Hi. }
  cbn [visit] in Hk. replace (visit_body e (visit e n) v (Node k sp cs) s) with (visit_instr e (visit e n) v (Node k sp cs) s) in Hk
    by (destruct v; try reflexivity; discriminate Hv).
  apply proper_node in Hpr as (Hs & Hcp & Hp).
  unfold visit_instr in Hk. cbn [nkind nspan nkids] in Hk.
  assert (Plain : forall R, match k with KList | KSwitchCase | KSwitch => False | _ => True end -> rg (Node k sp cs) = R ->
    done R s s' -> is_next (ign s') = false /\ adds (rg (Node k sp cs)) (Uv v (Node k sp cs)) (cov s) (cov s')).
  { intros R Hl <- Hd. rewrite Uv1; [exact Hd|assumption|]. now destruct k. }
  assert (Cs : match k with KList | KSwitch | KVarDecl _ | KStmts | KStmt => False | _ => True end -> forallb ordinary cs = true).
  { intros Hl. destruct k; try contradiction; exact Hcp. }
  Ltac reg_eq Hi := cbn [regs]; rewrite Hi; reflexivity.
  destruct k; try discriminate Hs;
    try (eapply Plain; [exact I|reg_eq Hi|eapply k_plain; eauto; apply Cs; exact I]);
    try (eapply Plain; [exact I|reg_eq Hi|unfold visit_marked, visit_marked_skip in Hk; eapply k_marked; eauto; apply Cs; exact I]);
    try (eapply Plain; [exact I|reg_eq Hi|eapply k_loop; eauto; apply Cs; exact I]).
  - eapply Plain; [exact I|reg_eq Hi|]. eapply k_plain; eauto. now apply (stmt_ordinary sp).
  - eapply Plain; [exact I|apply stmts_eq|]. eapply k_stmts; eauto.
  - cbn [visit_children] in Hk.
    apply bind_ok in Hk as [[cs' s1] [Hk Hr]]. inversion Hr; subst. apply kids_reg in Hk; auto.
    + destruct Hk as [A B]. split; [assumption|]. rewrite Rv_instr in B by assumption. rewrite <- list_Uv; [cbn [regs]; rewrite Hi; exact B|assumption|].
      cbn [placed] in Hcp. apply andb_true_iff in Hcp as [Hcp _]. apply negb_true_iff in Hcp. clear - Hcp.
      induction cs as [|c cs IHc]; [reflexivity|]. cbn in Hcp |- *. apply orb_false_iff in Hcp as [C1 C2].
      apply orb_false_iff in C1 as [C1 _]. apply orb_false_iff in C1 as [C1 _]. apply orb_false_iff in C1 as [C1 _].
      rewrite C1. auto.
    + apply (list_fits v sp); auto.
  - inversion Hk; subst. eapply Plain; [exact I|reg_eq Hi|]. split; [assumption|apply adds_nil].
  - eapply Plain; [exact I|reg_eq Hi|]. eapply (k_skip v sp cs); [..|exact Hk]; auto.
  - eapply Plain; [exact I|reflexivity|]. eapply k_exprstmt; eauto; apply Cs; exact I.
  - destruct cs; [|discriminate Hs]. eapply Plain; [exact I|reg_eq Hi|].
    destruct v; try discriminate Hv; try (eapply (k_plain _ sp []); [..|exact Hk]; auto; fail).
    destruct (nx sp) eqn:Hx; [|eapply (k_skip VCov sp []); [..|exact Hk]; auto].
    destruct (ignore_next e (S n) VCov (Node KDebugger sp []) s t' s' sp) as [_ ->]; auto; [now apply nx_hint|].
    split; [assumption|apply adds_nil].
  - eapply Plain; [exact I|reflexivity|]. eapply k_if; eauto; apply Cs; exact I.
  - rewrite Uv1 by auto. eapply k_switch; eauto.
  - destruct v as [| |b|b]; try discriminate Hv; try discriminate Hf. unfold ignored in Hi. cbn [hint_place] in Hi.
    apply k_case in Hk; auto. cbn [Uv]. unfold cpaths, cpath. cbn [nkind nspan is_case andb]. rewrite Hi.
    cbn [regs]. unfold ignored. cbn [hint_place]. rewrite Hi. exact Hk.
  - eapply Plain; [exact I|reflexivity|]. eapply k_with; eauto; apply Cs; exact I.
  - eapply Plain; [exact I|reg_eq Hi|]. eapply (k_vardecl v sp cs); [..|exact Hk]; auto. eapply decl_fits; eauto.
  - eapply Plain; [exact I|apply (init_rg (counted (NVarDeclarator :: stack s)))|]; auto.
    + intros Hl. apply inner_counted, Fr1. now rewrite Hl.
    + eapply k_init; [..|exact Hk]; auto.
  - eapply Plain; [exact I|reflexivity|]. eapply k_fn_decl; eauto; apply Cs; exact I.
  - eapply Plain; [exact I|reflexivity|]. eapply k_fn_expr; eauto; apply Cs; exact I.
  - eapply Plain; [exact I|reflexivity|]. eapply k_arrow; eauto; apply Cs; exact I.
  - destruct cs as [|a [|c [|? ?]]]; try discriminate Hk. eapply Plain; [exact I|reg_eq Hi|].
    eapply (k_skip v sp [a; c]); [..|exact Hk]; auto.
  - eapply Plain; [exact I|apply init_rg|eapply k_init; [..|exact Hk]; auto; discriminate]; auto; discriminate.
  - eapply Plain; [exact I|apply init_rg|eapply k_init; [..|exact Hk]; auto; discriminate]; auto; discriminate.
  - eapply Plain; [exact I|reflexivity|]. eapply k_class_method; eauto; apply Cs; exact I.
  - eapply Plain; [exact I|reflexivity|]. eapply k_method_prop; eauto; apply Cs; exact I.
  - eapply Plain; [exact I|reflexivity|]. eapply k_accessor; [..|exact Hk]; auto.
  - eapply Plain; [exact I|reflexivity|]. eapply k_accessor; [..|exact Hk]; auto.
  - eapply Plain; [exact I|reflexivity|]. eapply k_cond; eauto; apply Cs; exact I.
  - eapply Plain; [exact I|reflexivity|]. eapply k_bin; eauto; apply Cs; exact I.
  - eapply Plain; [exact I|reflexivity|]. eapply k_assign; eauto; apply Cs; exact I.
Qed.

Lemma step_logical : forall b t s t' s', is_next (ign s) = false -> proper t = true ->
  visit e (S n) (VLogical b) t s = Ok (t', s') ->
  is_next (ign s') = false /\ adds [] (map (pair b) (lp t)) (cov s) (cov s').
Proof.
  intros b t s t' s' Hn Hpr Hk. destruct t as [k sp cs]. apply proper_node in Hpr as G. destruct G as (_ & _ & Hp).
  assert (Ign : hint_site (VLogical b) (Node k sp cs) = Some sp -> nx sp = true -> lp (Node k sp cs) = [] ->
    is_next (ign s') = false /\ adds [] (map (pair b) (lp (Node k sp cs))) (cov s) (cov s')).
  { intros Hs Hx ->. apply nx_hint in Hx. destruct (ignore_next e (S n) (VLogical b) (Node k sp cs) s t' s' sp) as [_ ->]; auto.
    - now apply proper_good.
    - split; [assumption|apply adds_nil]. }
  cbn [visit visit_body] in Hk. unfold visit_logical in Hk. cbn [nkind nspan] in Hk.
  destruct k; try (eapply logical_kids; eauto; fail).
  - destruct (nx sp) eqn:Hx; [apply Ign; auto; cbn [lpaths]; now rewrite Hx|].
    unfold on_enter, on_enter_with_span in Hk. cbn [ign push] in Hk. rewrite Hn in Hk. cbn iota zeta beta in Hk.
    apply bind_ok in Hk as [[t1 s2] [Hk Hr]]. inversion Hr; subst. apply logical_kids in Hk; auto; try (cbn; now rewrite is_next_nx).
    destruct Hk as [_ B]. split; [assumption|]. cbn [lpaths]. rewrite Hx. exact B.
  - destruct (nx sp) eqn:Hx; [apply Ign; auto; cbn [lpaths]; now rewrite Hx|].
    unfold visit_bin_expr, on_enter_with_span in Hk. cbn [nspan nkids nkind] in Hk. rewrite Hn in Hk.
    cbn iota zeta beta in Hk. rewrite is_next_nx, Hx in Hk. cbn [lpaths]. rewrite Hx.
    rewrite short_circuit_op. destruct (is_logical_op op).
    + destruct cs as [|l [|r [|? ?]]]; try discriminate.
      cbn in Hp. apply andb_true_iff in Hp as [P1 P2]. rewrite andb_true_r in P2.
      apply bind_ok in Hk as [[l' s3] [H1 Hk]]. apply bind_ok in Hk as [[r' s4] [H2 Hk]]. inversion Hk; subst.
      apply wrap_reg in H1 as [A1 A2]; auto; try (cbn; now rewrite is_next_nx). apply wrap_reg in H2 as [B1 B2]; auto.
      split; [assumption|].
      replace (flat_map _ [l; r]) with (op_ l ++ op_ r) by (cbn [flat_map]; rewrite app_nil_r; destruct l, r; reflexivity).
      rewrite map_app. exact (adds_comp _ _ _ _ _ _ _ _ A2 B2).
    + apply bind_ok in Hk as [[t1 s2] [Hk Hr]]. inversion Hr; subst. apply logical_kids in Hk; auto; try (cbn; now rewrite is_next_nx).
      destruct Hk as [_ B]. split; [exact Hn|exact B].
Qed.
End Step.

Lemma visit_reg : forall n v t s t' s', is_next (ign s) = false -> proper t = true -> fit v t (stack s) ->
  visit e n v t s = Ok (t', s') -> is_next (ign s') = false /\ adds (Rv v t) (Uv v t) (cov s) (cov s').
Proof.
  induction n as [|n IHn]; intros v t s t' s' Hn Hp Hf Hk; [discriminate|].
  destruct v as [| |b|b]; try (eapply step_instr; eauto; fail). eapply step_logical; eauto.
Qed.

(** ** Programs *)
Lemma quiet_stack : forall n t s t' s', quiet_ true t = true -> visit e n VCov t s = Ok (t', s') -> stack s' = stack s.
Proof.
  intros n t s t' s' Hq Hk. apply (visit_sound e n) in Hk. apply (proj1 (quiet_all e)) in Hk.
  destruct (Hk (quiet_any _ _ Hq)) as [C _]. specialize (C eq_refl). unfold context in C. congruence.
Qed.
Lemma quiet_stacks : forall n k sp ts s t' s', forallb (quiet_ true) ts = true ->
  visit_children (visit e n) VCov (Node k sp ts) s = Ok (t', s') -> stack s' = stack s.
Proof.
  intros n k sp ts s t' s' Hq Hk. cbn [visit_children] in Hk. apply bind_ok in Hk as [[ts1 s1] [Hk Hr]]. inversion Hr; subst. clear Hr.
  revert s ts1 Hk Hq. induction ts as [|t ts IHt]; intros s ts1 Hk Hq; cbn [visit_list] in Hk.
  - now inversion Hk.
  - cbn in Hq. apply andb_true_iff in Hq as [Q1 Q2]. apply bind_ok in Hk as [[t1 s1] [Ht Hk]].
    apply bind_ok in Hk as [[ts2 s2] [Hl Hk]]. inversion Hk; subst. rewrite (IHt _ _ Hl Q2). eapply quiet_stack; eauto.
Qed.

Lemma top_declarator_rg : forall d, lost_init d = false -> top_declarator H rl M d = rg d.
Proof.
  intros [k sp cs] Hl. unfold lost_init in Hl. cbn [nkind nkids] in Hl. destruct k; try reflexivity.
  cbn [top_declarator regs]. unfold ignored. cbn [hint_place]. destruct (nx sp); [reflexivity|].
  destruct cs as [|a [|x cs]]; try reflexivity. f_equal. destruct (is_none x); [reflexivity|]. cbn in Hl |- *.
  now rewrite Hl.
Qed.
Lemma declarators_rg : forall ds, existsb lost_init ds = false -> flat_map (top_declarator H rl M) ds = flat_map rg ds.
Proof.
  induction ds as [|d ds IHd]; intros Hl; [reflexivity|]. cbn in Hl |- *. apply orb_false_iff in Hl as [L1 L2].
  now rewrite IHd, top_declarator_rg.
Qed.

(** Declarators where initialised variables are counted *)
Lemma declarators_top : forall n stk ds s ds' s', is_next (ign s) = false -> forallb proper ds = true ->
  forallb (fun d => no_case d && negb (lost_list d || lost_decl d || lost_stmt d)) ds = true -> settled ds = true ->
  counted (NVarDeclarator :: stk) = true -> (existsb lost_init ds = true -> stack s = stk) ->
  visit_list (visit e n) VCov ds s = Ok (ds', s') -> done (flat_map (top_declarator H rl M) ds) s s'.
Proof.
  intros n stk. induction ds as [|d ds IHd]; intros s ds' s' Hn Hp Hc Hs Hct Hst Hk.
  - inversion Hk; subst. split; [assumption|apply adds_nil].
  - cbn [visit_list] in Hk. apply bind_ok in Hk as [[d' s1] [H1 Hk]]. apply bind_ok in Hk as [[rest s2] [H2 Hk]].
    inversion Hk; subst. cbn in Hp, Hc, Hs. apply andb_true_iff in Hp as [P1 P2]. apply andb_true_iff in Hc as [C1 C2].
    apply andb_true_iff in Hs as [S1 S2].
    assert (Hst' : existsb lost_init ds = true -> stack s1 = stk).
    { intros Hl. rewrite Hl, orb_false_r in S1. rewrite (quiet_stack _ _ _ _ _ S1 H1). apply Hst. cbn. now rewrite Hl, orb_true_r. }
    assert (A : done (top_declarator H rl M d) s s1).
    { destruct (lost_init d) eqn:Hl.
      - assert (Hst0 : stack s = stk) by (apply Hst; cbn; now rewrite Hl). clear - nodummy Hn P1 Hct H1 Hst0 Hl.
        destruct d as [k sp cs]. unfold lost_init in Hl. cbn [nkind nkids] in Hl. destruct k; try discriminate Hl.
        cbn [top_declarator]. destruct (nx sp) eqn:Hx.
        + apply nx_hint in Hx. destruct (ignore_next e n VCov (Node KVarDeclarator sp cs) s d' s1 sp) as [_ ->]; auto; [now apply proper_good|].
          split; [assumption|apply adds_nil].
        + apply proper_node in P1 as (Q1 & Q2 & Q3). destruct n as [|m]; [discriminate|]. cbn [visit visit_body] in H1.
          unfold visit_instr in H1. cbn [nkind nspan] in H1.
          pose proof (k_init m (visit_reg m) VCov sp cs s d' s1 eq_refl Hn Q3 Q2 NVarDeclarator KVarDeclarator eq_refl Q1 Hx H1) as G.
          rewrite Hst0, Hct in G. unfold init_regs in G. cbn [negb] in G. destruct cs as [|a [|x cs]]; try exact G.
          now rewrite andb_false_r, orb_false_r in G.
      - rewrite top_declarator_rg by assumption. apply andb_true_iff in C1 as [C1 C3]. apply negb_true_iff in C3.
        apply orb_false_iff in C3 as [C3 C4]. apply orb_false_iff in C3 as [C3 C5].
        apply visit_reg in H1; auto. apply ordinary_fit. unfold ordinary. now rewrite C1, Hl, C3, C4, C5. }
    destruct A as [A1 A2]. destruct (IHd _ _ _ A1 P2 C2 S2 Hct Hst' H2) as [B1 B2]. split; [assumption|].
    cbn [flat_map]. eapply done_comp; eassumption.
Qed.

Lemma declaration_top : forall n vk sp cs s t' s', is_next (ign s) = false -> proper (Node (KVarDecl vk) sp cs) = true ->
  (lost_decl (Node (KVarDecl vk) sp cs) = true -> counted (NVarDeclarator :: NVarDecl :: stack s) = true) ->
  visit e n VCov (Node (KVarDecl vk) sp cs) s = Ok (t', s') -> done (top_declaration H rl M (Node (KVarDecl vk) sp cs)) s s'.
Proof.
  intros n vk sp cs s t' s' Hn Hp Hct Hk. unfold top_declaration. cbn [nspan nkids]. destruct (nx sp) eqn:Hx.
  { apply nx_hint in Hx. destruct (ignore_next e n VCov (Node (KVarDecl vk) sp cs) s t' s' sp) as [_ ->]; auto; [now apply proper_good|].
    split; [assumption|apply adds_nil]. }
  apply proper_node in Hp as G. destruct G as (Q1 & Q2 & Q3). cbn [shaped] in Q1.
  destruct cs as [|[k lsp ds] [|? ?]]; try discriminate Q1. unfold is_list in Q1. cbn [nkind] in Q1. destruct k; try discriminate Q1.
  cbn [flat_map nkids]. rewrite app_nil_r.
  destruct (existsb lost_init ds) eqn:Hl.
  - assert (Hct' : counted (NVarDeclarator :: NVarDecl :: stack s) = true).
    { apply Hct. unfold lost_decl, lost_list. cbn [nkind nkids existsb]. now rewrite Hl. }
    cbn in Q3. rewrite andb_true_r in Q3. apply andb_true_iff in Q3 as [Q3 Q4]. apply andb_true_iff in Q3 as [Q3 Q5].
    apply negb_true_iff in Q3. cbn [placed forallb] in Q2. rewrite andb_true_r in Q2.
    destruct n as [|m]; [discriminate|]. cbn [visit visit_body] in Hk. unfold visit_instr in Hk. cbn [nkind nspan] in Hk.
    apply enter_reg in Hk as (s2 & Hk & E1 & E2); auto. cbn [visit_children] in Hk.
    apply bind_ok in Hk as [[cs' s3] [Hk Hr]]. inversion Hr; subst. clear Hr. cbn [visit_list] in Hk.
    apply bind_ok in Hk as [[t1 s1] [Hk Hr]]. inversion Hr; subst. clear Hr.
    destruct m as [|m]; [discriminate|]. cbn [visit visit_body] in Hk. unfold visit_instr in Hk. cbn [nkind nspan] in Hk.
    cbn [visit_children] in Hk. apply bind_ok in Hk as [[ds' s3] [Hk Hr]]. inversion Hr; subst. clear Hr.
    apply (declarators_top m (NVarDecl :: stack s)) in Hk; auto; try (cbn; now rewrite is_next_nx).
    + destruct Hk as [_ B]. split; [now rewrite E2|now rewrite E1].
    + apply forallb_forall. intros d Hd. pose proof (existsb_in _ _ _ _ Q3 Hd) as C. cbn beta in C.
      apply orb_false_iff in C as [C C1]. apply orb_false_iff in C as [C C2]. apply orb_false_iff in C as [C C3].
      rewrite C1, C2, C3. unfold no_case in *. apply negb_true_iff, orb_false_iff in Q2 as [_ Q2]. unfold caselist in Q2.
      cbn [nkind nkids] in Q2. now rewrite (existsb_in _ _ _ _ Q2 Hd), C.
  - rewrite declarators_rg by assumption. apply visit_reg in Hk; auto.
    + cbn [Rv Uv regs] in Hk. unfold ignored in Hk. cbn [hint_place flat_map] in Hk. rewrite Hx, app_nil_r in Hk. exact Hk.
    + apply ordinary_fit. unfold ordinary, lost_decl, lost_list. cbn [nkind nkids existsb]. rewrite Hl. reflexivity.
Qed.

Lemma top_reg : forall n y s t' s', is_next (ign s) = false -> proper_top y = true ->
  (lost_decl y = true -> counted (NVarDeclarator :: NVarDecl :: stack s) = true) ->
  visit e n VCov y s = Ok (t', s') -> done (top_regs H rl M y) s s'.
Proof.
  intros n [k sp cs] s t' s' Hn Hp Hct Hk. unfold proper_top in Hp. cbn [nkind] in Hp. unfold top_regs. cbn [nkind].
  assert (Std : ordinary (Node k sp cs) && proper (Node k sp cs) = true -> done (rg (Node k sp cs)) s s').
  { intros G. apply andb_true_iff in G as [G1 G2]. apply visit_reg in Hk; auto. now apply ordinary_fit. }
  destruct k; try exact (Std Hp). eapply declaration_top; eauto.
Qed.

Lemma kids_good : forall cs, forallb proper cs = true -> forallb (good false) cs = true.
Proof. intros cs Hp. rewrite forallb_forall in *. intros x Hx. apply proper_good. auto. Qed.
Lemma top_good : forall y, proper_top y = true -> good false y = true.
Proof.
  intros [k sp cs] Hp. unfold proper_top in Hp. cbn [nkind nkids] in Hp. apply proper_good.
  destruct k; try exact Hp; apply andb_true_iff in Hp as [P1 P2]; exact P2.
Qed.
Lemma child_good : forall y, proper_child y = true -> good false y = true.
Proof.
  intros [k sp cs] Hp. unfold proper_child in Hp. cbn [nkind nkids] in Hp.
  destruct k; try (apply top_good; exact Hp); apply andb_true_iff in Hp as [P1 P2]; cbn [good]; rewrite kids_good by assumption; reflexivity.
Qed.

Lemma single_fits : forall v a cs stk, placed KStmt cs = true -> inner 0 stk ->
  forallb no_case cs = true /\ fits v cs (a :: stk).
Proof.
  intros v a cs stk Hp Hi.
  assert (G : forallb ordinary cs = true -> forallb no_case cs = true /\ fits v cs (a :: stk)).
  { intros G. split; [now apply ordinary_no_case|now apply ordinary_fits]. }
  destruct cs as [|c [|? ?]]; cbn [placed] in Hp; auto. clear G.
  apply andb_true_iff in Hp as [C1 C2]. apply negb_true_iff, orb_false_iff in C2 as [C2 C3].
  split; [cbn [forallb]; now rewrite C1|]. split; [|intros; exact I]. split; [unfold fitv; now destruct v|].
  intros _. unfold free. rewrite C2, C3. split; [discriminate|]. split; [intros _; exact Hi|reflexivity].
Qed.

Lemma child_reg : forall n y s t' s', is_next (ign s) = false -> proper_child y = true -> inner 0 (stack s) ->
  (lost_decl y = true -> counted (NVarDeclarator :: NVarDecl :: stack s) = true) ->
  visit e n VCov y s = Ok (t', s') -> done (export_regs H rl M y) s s'.
Proof.
  intros n y s t' s' Hn Hp Hin Hct Hk. pose proof (child_good _ Hp) as Hg. unfold proper_child in Hp.
  destruct y as [k sp cs]. cbn [nkind nkids] in Hp.
  assert (Exp : forall nk, placed KStmt cs && forallb proper cs = true ->
    (k = KExportDecl \/ k = KExportDefaultDecl) ->
    (forall m, visit_body e (visit e m) VCov (Node k sp cs) s = visit_skip e (visit e m) nk sp VCov (Node k sp cs) s) ->
    done (if nx sp then [] else flat_map rg cs) s s').
  { intros nk G Hk' Hb. apply andb_true_iff in G as [G1 G2]. destruct (nx sp) eqn:Hx.
    - destruct (ignore_next e n VCov (Node k sp cs) s t' s' sp) as [_ ->]; auto.
      + now destruct Hk' as [-> | ->].
      + now apply nx_hint.
      + split; [assumption|apply adds_nil].
    - destruct n as [|m]; [discriminate|]. cbn [visit] in Hk. rewrite Hb in Hk.
      destruct (single_fits VCov nk cs (stack s) G1 Hin) as [G3 G4].
      unfold visit_skip in Hk. apply enter_reg in Hk as (s2 & Hk & E1 & E2); auto.
      apply (kids_fit m (visit_reg m) VCov k sp cs _ _ _ eq_refl) in Hk; auto; try (cbn; now rewrite is_next_nx).
      destruct Hk as [A B]. unfold done. rewrite E1, E2. auto. }
  unfold export_regs. cbn [nkind nspan nkids].
  destruct k; try (eapply top_reg; eauto; fail).
  - apply (Exp NExportDecl); auto.
  - apply (Exp NExportDefaultDecl); auto.
Qed.
Lemma ordinary_top : forall y, ordinary y = true -> proper y = true ->
  top_regs H rl M y = rg y /\ export_regs H rl M y = rg y.
Proof.
  intros [k sp cs] Ho Hp. unfold export_regs, top_regs. cbn [nkind].
  assert (G : forall vk, k = KVarDecl vk -> top_declaration H rl M (Node k sp cs) = rg (Node k sp cs)).
  { intros vk ->. apply proper_node in Hp as (Q1 & _ & _). cbn [shaped] in Q1.
    destruct cs as [|[k lsp ds] [|? ?]]; try discriminate Q1. unfold is_list in Q1. cbn [nkind] in Q1. destruct k; try discriminate Q1.
    unfold top_declaration. cbn [nspan nkids regs flat_map]. unfold ignored. cbn [hint_place].
    destruct (nx sp); [reflexivity|]. f_equal. apply declarators_rg. unfold ordinary in Ho. apply andb_true_iff in Ho as [_ Ho].
    apply negb_true_iff in Ho. unfold lost_decl, lost_list in Ho. cbn [nkind nkids existsb] in Ho.
    apply orb_false_iff in Ho as [Ho _]. apply orb_false_iff in Ho as [_ Ho]. now rewrite orb_false_r in Ho. }
  destruct k; try (split; reflexivity); try discriminate Hp. split; eapply G; reflexivity.
Qed.
Lemma children_reg : forall n k sp ys s t' s', is_next (ign s) = false -> proper_item (Node k sp ys) = true -> inner 0 (stack s) ->
  (existsb lost_decl ys = true -> counted (NVarDeclarator :: NVarDecl :: stack s) = true) ->
  visit_children (visit e n) VCov (Node k sp ys) s = Ok (t', s') -> done (flat_map (export_regs H rl M) ys) s s'.
Proof.
  intros n k sp ys s t' s' Hn Hp Hin Hct Hk. unfold proper_item in Hp. cbn [nkids] in Hp.
  assert (Std : forallb ordinary ys && forallb proper ys = true -> done (flat_map (export_regs H rl M) ys) s s').
  { intros G. apply andb_true_iff in G as [G1 G2].
    replace (flat_map (export_regs H rl M) ys) with (flat_map rg ys); [eapply (kids_instr n (visit_reg n) VCov); eauto|].
    clear - G1 G2. induction ys as [|y ys IHy]; [reflexivity|]. cbn in G1, G2 |- *. apply andb_true_iff in G1 as [G1 G3].
    apply andb_true_iff in G2 as [G2 G4]. rewrite IHy by assumption. now destruct (ordinary_top y G1 G2) as [_ ->]. }
  destruct ys as [|y [|? ?]]; try exact (Std Hp). clear Std. cbn [visit_children visit_list] in Hk.
  apply bind_ok in Hk as [[ys' s1] [Hk Hr]]. inversion Hr; subst. clear Hr.
  apply bind_ok in Hk as [[y' s2] [Hk Hr]]. inversion Hr; subst. clear Hr.
  cbn [flat_map]. rewrite app_nil_r. eapply child_reg; eauto. intros Hl. apply Hct. cbn. now rewrite Hl.
Qed.

Lemma item_reg : forall n xs s xs' s', is_next (ign s) = false -> forallb proper_item xs = true -> settled_items xs = true ->
  (existsb lost_item xs = true -> stack s = [NProgram]) -> visit_items e (visit e n) xs s = Ok (xs', s') ->
  is_next (ign s') = false /\ adds (flat_map (item_regs H rl M) xs) [] (cov s) (cov s').
Proof.
  intros n. induction xs as [|x xs IHx]; intros s xs' s' Hn Hp Hs Hst Hk.
  - inversion Hk; subst. split; [assumption|apply adds_nil].
  - cbn in Hp, Hs. apply andb_true_iff in Hp as [P1 P2]. apply andb_true_iff in Hs as [S1 S2]. cbn [visit_items] in Hk.
    apply bind_ok in Hk as [[new s1] [H1 Hk]]. apply bind_ok in Hk as [[rest s2] [H2 Hk]]. inversion Hk; subst.
    cbn [flat_map].
    assert (A : is_next (ign s1) = false /\ (quiet_item_ true x = true -> stack s1 = stack s) /\
                adds (item_regs H rl M x) [] (cov s) (cov s1)).
    { unfold item_regs. rewrite string_item_is, exported_consts_is. destruct (directive_continue x).
      - inversion H1; subst. split; [assumption|]. split; [auto|apply adds_nil].
      - set (nk := match nkind x with KModuleDecl => NModuleDecl | _ => NStmt end) in H1.
        unfold on_enter, on_enter_with_span in H1. cbn [ign push] in H1. rewrite Hn in H1. cbn iota zeta beta in H1.
        apply bind_ok in H1 as [[x' s3] [Hv H1]]. inversion H1; subst. split; [exact Hn|].
        cbn [cov stack on_exit pop set_ign clear_before].
        match type of Hv with visit_children _ _ _ ?a = _ => set (sa := a) in Hv end.
        assert (Ha : adds (match export_const_span x with Some esp => [RStmt esp] | None => [] end) [] (cov s) (cov sa) /\
                     ign sa = H (nspan x) /\ stack sa = nk :: stack s).
        { unfold sa. destruct (export_const_span x) as [esp|]; (split; [|split; reflexivity]); [|apply adds_nil].
          match goal with |- adds _ _ _ (cov (mark_prepend_stmt_counter e _ ?s0)) => exact (mark_reg esp s0) end. }
        destruct Ha as (Ha & Hign & Hsa). clearbody sa.
        destruct x as [k sp cs]. cbn [nspan nkids] in *. split.
        + intros Hq. apply quiet_stacks in Hv; [|exact Hq]. rewrite Hv, Hsa. reflexivity.
        + eapply done_comp; [exact Ha|]. destruct (nx sp) eqn:Hx.
          * cbn [visit_children] in Hv. apply bind_ok in Hv as [[cs' s4] [Hv Hr]]. inversion Hr; subst.
            apply (kids_sound e (visit e n) (visit_sound e n)) in Hv. apply (proj1 (proj2 (next_all e))) in Hv.
            destruct Hv as [_ ->]; [now rewrite Hign, is_next_nx| |apply adds_nil].
            unfold proper_item in P1. cbn [nkids] in P1. destruct cs as [|c [|? ?]]; [reflexivity| |].
            { cbn [forallb]. now rewrite child_good. }
            { apply andb_true_iff in P1 as [_ P1]. now apply kids_good. }
          * apply children_reg in Hv; auto; [apply Hv|now rewrite Hign, is_next_nx| |].
            { rewrite Hsa. unfold nk. cbn [nkind]. destruct k; exact I. }
            { intros Hl. rewrite Hsa, Hst; [reflexivity|]. cbn [existsb]. unfold lost_item at 1. cbn [nkids]. now rewrite Hl. } }
    destruct A as (A1 & A2 & A3).
    assert (Hst' : existsb lost_item xs = true -> stack s1 = [NProgram]).
    { intros Hl. rewrite Hl, orb_false_r in S1. rewrite A2 by assumption. apply Hst. cbn. now rewrite Hl, orb_true_r. }
    destruct (IHx _ _ _ A1 P2 S2 Hst' H2) as [B1 B2]. split; [assumption|]. eapply done_comp; eassumption.
Qed.

Lemma script_reg : forall n xs s xs' s', is_next (ign s) = false -> forallb proper_script_item xs = true -> settled_items xs = true ->
  (existsb lost_item xs = true -> stack s = [NProgram]) -> visit_script_items (visit e n) xs s = Ok (xs', s') ->
  is_next (ign s') = false /\ adds (flat_map (fun x => flat_map (top_regs H rl M) (nkids x)) xs) [] (cov s) (cov s').
Proof.
  intros n. induction xs as [|x xs IHx]; intros s xs' s' Hn Hp Hs Hst Hk.
  - inversion Hk; subst. split; [assumption|apply adds_nil].
  - cbn in Hp, Hs. apply andb_true_iff in Hp as [P1 P2]. apply andb_true_iff in Hs as [S1 S2]. cbn [visit_script_items] in Hk.
    apply bind_ok in Hk as [[x' s1] [H1 Hk]]. apply bind_ok in Hk as [[rest s2] [H2 Hk]]. inversion Hk; subst.
    assert (Hst' : existsb lost_item xs = true -> stack s1 = [NProgram]).
    { intros Hl. rewrite Hl, orb_false_r in S1. unfold quiet_item_ in S1. destruct x as [k sp cs]. cbn [nkids] in S1.
      rewrite (quiet_stacks _ _ _ _ _ _ _ S1 H1). apply Hst. cbn. now rewrite Hl, orb_true_r. }
    assert (A : done (flat_map (top_regs H rl M) (nkids x)) s s1).
    { destruct x as [k sp ys]. unfold proper_script_item in P1. cbn [nkids] in *.
      assert (Std : forallb ordinary ys && forallb proper ys = true -> done (flat_map (top_regs H rl M) ys) s s1).
      { intros G. apply andb_true_iff in G as [G1 G2].
        replace (flat_map (top_regs H rl M) ys) with (flat_map rg ys); [eapply (kids_instr n (visit_reg n) VCov); eauto|].
        clear - G1 G2. induction ys as [|y ys IHy]; [reflexivity|]. cbn in G1, G2 |- *. apply andb_true_iff in G1 as [G1 G3].
        apply andb_true_iff in G2 as [G2 G4]. rewrite IHy by assumption. now destruct (ordinary_top y G1 G2) as [-> _]. }
      destruct ys as [|y [|? ?]]; try exact (Std P1). clear Std. cbn [visit_children visit_list] in H1.
      apply bind_ok in H1 as [[ys' s3] [H1 Hr]]. inversion Hr; subst. clear Hr.
      apply bind_ok in H1 as [[y' s4] [H1 Hr]]. inversion Hr; subst. clear Hr.
      cbn [flat_map]. rewrite app_nil_r. eapply top_reg; eauto. intros Hl. rewrite Hst; [reflexivity|].
      cbn [existsb]. unfold lost_item at 1. cbn [nkids existsb]. now rewrite Hl. }
    destruct A as [A1 A2]. destruct (IHx (clear_before s1) _ _ A1 P2 S2 Hst' H2) as [B1 B2]. split; [assumption|].
    cbn [flat_map]. eapply done_comp; [exact A2|exact B2].
Qed.
End Main.

Lemma tab_new : forall path r ism, tab (set_input_source_map ism (sc_new path r)) [] [] [].
Proof. intros. now constructor. Qed.

Lemma retain_rows : forall B i,
  im_retain (fun _ b => has_paths b) (number_from i (map branch_row B)) =
  map (fun x => (fst x, branch_row (snd x)))
    (filter (fun x => match snd (snd x) with [] => false | _ => true end) (number_from i B)).
Proof.
  induction B as [|[[t l] ps] B IHB]; intros i; [reflexivity|]. cbn. unfold im_retain in *. cbn.
  destruct ps; cbn; rewrite IHB; reflexivity.
Qed.

Lemma tab_frozen : forall c S F B, tab c S F B ->
  fc_statement_map (sc_fc (freeze c)) = number_from 0 S /\
  fc_fn_map (sc_fc (freeze c)) = map (fun x => (fst x, fn_row (fst x) (snd x))) (number_from 0 F) /\
  fc_branch_map (sc_fc (freeze c)) =
    map (fun x => (fst x, branch_row (snd x)))
      (filter (fun x => match snd (snd x) with [] => false | _ => true end) (number_from 0 B)).
Proof.
  intros c S F B T. destruct T. cbn. split; [assumption|]. split; [assumption|]. rewrite t_b0. apply retain_rows.
Qed.

(** The tables of the program's record are the entries the specification lists, numbered in
    order.  Branching constructs without any path have been dropped. *)
Theorem record_is_exact : forall e n path ism t t' sc,
  next (hint e) dummy_span = false ->
  should_ignore_file (e_word e) (e_comments e) (nspan t) = false ->
  proper_program t = true -> instrument e n path ism t = Ok (t', sc) ->
  let R := program_regs (hint e) (e_report_logic e) (e_ignore_methods e) t in
  fc_statement_map (sc_fc sc) = number_from 0 (reg_stmts e R) /\
  fc_fn_map (sc_fc sc) = map (fun x => (fst x, fn_row (fst x) (snd x))) (number_from 0 (reg_fns e R)) /\
  fc_branch_map (sc_fc sc) =
    map (fun x => (fst x, branch_row (snd x)))
      (filter (fun x => match snd (snd x) with [] => false | _ => true end) (number_from 0 (reg_branches e R))).
Proof.
  intros e n path ism t t' sc Hd Hf Hp Hk R. unfold instrument, visit_program in Hk. rewrite Hf in Hk.
  apply bind_ok in Hk as [[t1 s1] [Hk Hr]]. inversion Hr; subst. clear Hr.
  apply bind_ok in Hk as [[t2 s2] [Hk Hr]]. inversion Hr; subst. clear Hr. cbn [cov pop].
  assert (G : exists s0, cov s2 = freeze (cov s0) /\ adds e R [] (cov (init_state e path ism)) (cov s0)).
  { destruct n as [|n]; [discriminate|]. unfold proper_program in Hp. destruct t as [k sp cs].
    destruct cs as [|[k' sp' items] [|? ?]]; try discriminate.
    destruct k; try discriminate; destruct k'; try discriminate.
    - cbn [visit visit_body] in Hk. unfold visit_instr in Hk. cbn [nkind visit_children] in Hk.
      apply bind_ok in Hk as [[cs' s3] [Hk Hr]]. inversion Hr; subst. clear Hr. cbn [visit_list] in Hk.
      apply bind_ok in Hk as [[t1 s1] [Hk Hr]]. inversion Hr; subst. clear Hr.
      destruct n as [|n]; [discriminate|]. cbn [visit visit_body] in Hk. unfold visit_instr in Hk. cbn [nkind] in Hk.
      unfold visit_module_items in Hk. cbn [nkids nkind nspan] in Hk.
      apply bind_ok in Hk as [[items' s4] [Hk Hr]]. cbn [get_coverage_templates] in Hr.
      exists s4. split; [inversion Hr; subst; destruct (match rev (stack _) with NProgram :: _ => true | _ => false end); reflexivity|].
      apply andb_true_iff in Hp as [Hp1 Hp2]. apply item_reg in Hk; auto. apply Hk.
    - cbn [visit visit_body] in Hk. unfold visit_instr in Hk. cbn [nkind] in Hk.
      unfold visit_script in Hk. cbn [nkids stmts_view expect] in Hk.
      apply bind_ok in Hk as [[ssp body] [Hb Hk]]. inversion Hb; subst. clear Hb.
      apply bind_ok in Hk as [[items' s4] [Hk Hr]]. cbn [get_coverage_templates] in Hr.
      exists s4. split; [inversion Hr; reflexivity|]. 
      apply andb_true_iff in Hp as [Hp1 Hp2]. apply script_reg in Hk; auto. apply Hk. }
  destruct G as (s0 & -> & A). apply tab_frozen.
  specialize (A [] [] [] (Forall_nil _) (tab_new path (e_report_logic e) ism)). exact A.
Qed.

(** ** Example

    [export const k = a ? 1 : 2;
     function f(a = 1) { if (a) return 1; /* istanbul ignore next */ while (a) g(); return a || b && 2; }
     switch (x) { case 1: y; default: }
     const h = { m() { throw 1 } };] *)
Definition ex_registered : node :=
  module_ 1 200
    [at_ 1 30 KModuleDecl [at_ 1 30 KExportDecl [at_ 8 30 (KVarDecl VConst)
       [list_ [declarator 14 29 "k" (X 18 29 KCond [var 18 19 "a"; num 22 23; num 26 27])]]]];
     T 31 130 KFnDecl [at_ 40 41 (KIdent "f") [];
       fn_ 31 130 [at_ 42 47 KAssignPat [at_ 42 43 (KIdent "a") []; num 46 47]]
         (block 49 130
           [T 51 67 KIf [var 55 56 "a"; T 58 67 KReturn [num 65 66]; none];
            T 90 104 KWhile [var 97 98 "a"; T 100 104 KExprStmt [X 100 103 (KOther 1) [var 100 101 "g"]]];
            T 105 128 KReturn
              [X 112 127 (KBin OpOr) [var 112 113 "a"; X 117 123 (KBin OpAnd) [var 117 118 "b"; num 122 123]]]])];
     T 131 160 KSwitch [var 139 140 "x";
       list_ [at_ 145 152 KSwitchCase [num 150 151; mk KStmts [T 153 155 KExprStmt [var 153 154 "y"]]];
              at_ 156 159 KSwitchCase [none; mk KStmts []]]];
     let_ 161 190 VConst [declarator 167 189 "h" (X 171 189 (KOther 2)
       [at_ 173 187 KMethodProp [at_ 173 174 (KPropIdent "m") []; fn_ 173 187 [] (block 177 187 [T 179 186 KThrow [num 185 186]])]])]].
Definition sp (a b : N) : span := mkSpan a b.
Example registered_ex :
  let e := comment_env 90 "istanbul ignore next" in
  next (hint e) dummy_span = false /\
  should_ignore_file (e_word e) (e_comments e) (nspan ex_registered) = false /\
  proper_program ex_registered = true /\ is_ok (instrument e 40 "f.js" None ex_registered) = true /\
  program_regs (hint e) false [] ex_registered =
    [RStmt (sp 1 30); RStmt (sp 18 29); RBranch CondExpr (sp 18 29) [sp 22 23; sp 26 27];
     RFn (Some "f"%string) (sp 40 41) (sp 49 130); RBranch DefaultArg (sp 42 47) [sp 46 47];
     RStmt (sp 51 67); RBranch BIf (sp 51 67) [sp 51 67; sp 51 67]; RStmt (sp 58 67);
     RStmt (sp 105 128); RBranch BinaryExpr (sp 112 127) [sp 112 113; sp 117 118; sp 122 123];
     RStmt (sp 131 160); RBranch BSwitch (sp 131 160) [sp 145 152; sp 156 159]; RStmt (sp 153 155);
     RStmt (sp 171 189); RFn (Some "m"%string) (sp 173 174) (sp 177 187); RStmt (sp 179 186)] /\
  (* without the hint the loop and its body are counted, too *)
  firstn 3 (skipn 8 (program_regs (hint plain_env) false [] ex_registered)) =
    [RStmt (sp 90 104); RStmt (sp 100 104); RStmt (sp 105 128)].
Proof. vm_compute. repeat split; reflexivity. Qed.

(** Not every initialised variable has a statement counter: the declaration [const f = () => 1]
    is counted at the top level of a program, but not in a function. *)
Definition ex_const (a : N) : node :=
  let_ a (a + 20) VConst [declarator (a + 6) (a + 19) "f" (X (a + 10) (a + 18) KArrow [list_ []; num (a + 17) (a + 18); mk KTs []])].
Definition ex_wrapped (d : node) : node :=
  T 30 80 KFnDecl [at_ 40 41 (KIdent "g") []; fn_ 30 80 [] (block 49 80 [d])].
Definition stmts_of (t : node) : option (list range) :=
  match instrument plain_env 40 "f.js" None t with Ok (_, sc) => Some (map snd (fc_statement_map (sc_fc sc))) | _ => None end.
Theorem initialised_variable_counted_refuted : exists d,
  proper_program (module_ 1 100 [d]) = true /\ proper_program (module_ 1 100 [ex_wrapped d]) = true /\
  stmts_of (module_ 1 100 [d]) = Some (reg_stmts plain_env [RStmt (sp 60 68); RStmt (sp 67 68)]) /\
  stmts_of (module_ 1 100 [ex_wrapped d]) = Some (reg_stmts plain_env [RStmt (sp 67 68)]).
Proof. exists (ex_const 50). vm_compute. repeat split; reflexivity. Qed.
Example lost_ex :
  program_regs (hint plain_env) false [] (module_ 1 100 [ex_const 2; ex_wrapped (ex_const 50)]) =
    [RStmt (sp 12 20); RFn None (sp 12 20) (sp 19 20); RStmt (sp 19 20); RFn (Some "g"%string) (sp 40 41) (sp 49 80);
     RFn None (sp 60 68) (sp 67 68); RStmt (sp 67 68)] /\
  proper_program (module_ 1 100 [ex_const 2; ex_wrapped (ex_const 50)]) = true.
Proof. vm_compute. repeat split; reflexivity. Qed.
