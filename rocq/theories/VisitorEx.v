(** Small programs for the examples about the instrumenter. *)
From Coq Require Import NArith String List Bool.
Import ListNotations.
From Verif Require Import Base IndexMap Oxide SourceCov Hints Ast Visitor.
Open Scope N_scope.

(** No comments; everything on line 1, the column being the position. *)
Definition no_comments : comments := mkComments (fun _ => None) (fun _ => None).
Definition plain_env : env := mkEnv no_comments (fun _ => false) (fun p => (1, p)) false [].
Definition logic_env : env := mkEnv no_comments (fun _ => false) (fun p => (1, p)) true [].
(** One leading comment *)
Definition comment_env (pos : N) (text : string) : env :=
  mkEnv (mkComments (fun p => if p =? pos then Some [chars text] else None) (fun _ => None))
    (fun _ => false) (fun p => (1, p)) false [].

(** Builders: a variant under its enum layer, with one span for both *)
Definition none : node := mk KNone [].
Definition at_ (a b : N) (k : kind) (cs : list node) : node := Node k (mkSpan a b) cs.
Definition X (a b : N) (k : kind) (cs : list node) : node := at_ a b KExpr [at_ a b k cs].
Definition T (a b : N) (k : kind) (cs : list node) : node := at_ a b KStmt [at_ a b k cs].
Definition num (a b : N) : node := X a b (KOther 0) [].
Definition var (a b : N) (x : string) : node := X a b (KIdent x) [].
Definition block (a b : N) (ss : list node) : node := at_ a b (KBlock false) [mk KStmts ss].
Definition list_ (cs : list node) : node := mk KList cs.
Definition module_ (a b : N) (items : list node) : node := at_ a b KModule [mk KModuleItems items].
Definition script_ (a b : N) (items : list node) : node := at_ a b KScript [mk KStmts items].
Definition fn_ (a b : N) (params : list node) (body : node) : node :=
  at_ a b KFunction [list_ params; list_ []; body; mk KTs []].
Definition let_ (a b : N) (vk : varkind) (ds : list node) : node := T a b (KVarDecl vk) [list_ ds].
Definition declarator (a b : N) (x : string) (init : node) : node :=
  at_ a b KVarDeclarator [at_ a (a + 1) (KIdent x) []; init].

(** The counters of a tree, in source order *)
Fixpoint counters (t : node) : list counter :=
  match t with Node k _ cs => ((match k with KCounter c => [c] | _ => [] end) ++ flat_map counters cs)%list end.
Definition run (e : env) (t : node) : res (list counter * file_coverage) :=
  let* (t', c) := instrument e 40 "f.js" None t in Ok (counters t', sc_fc c).
Definition run_counters (e : env) (t : node) : option (list counter) :=
  match run e t with Ok (l, _) => Some l | _ => None end.

(** [function f(a) { if (a) return 1; return a || 2; }] *)
Definition ex_function : node :=
  module_ 1 50 [T 1 50 KFnDecl [at_ 10 11 (KIdent "f") []; fn_ 1 50 [at_ 12 13 (KIdent "a") []]
    (block 15 50
      [T 17 33 KIf [var 21 22 "a"; T 24 33 KReturn [num 31 32]; none];
       T 34 48 KReturn [X 41 47 (KBin OpOr) [var 41 42 "a"; num 46 47]]])]].

Example ex_function_counters :
  run_counters plain_env ex_function =
  Some [CF 0; CS 0; CB 0 0; CS 1; CB 0 1; CS 2; CB 1 0; CB 1 1].
Proof. vm_compute. reflexivity. Qed.

(** [const f = () => 1] *)
Definition ex_arrow : node :=
  module_ 1 20 [let_ 1 20 VConst [declarator 7 19 "f" (X 11 18 KArrow [list_ []; num 17 18; mk KTs []])]].
Example ex_arrow_counters : run_counters plain_env ex_arrow = Some [CS 0; CF 0; CS 1].
Proof. vm_compute. reflexivity. Qed.

(** [switch (x) { case 1: y; default: }] *)
Definition ex_switch : node :=
  module_ 1 40 [T 1 40 KSwitch [var 9 10 "x";
    list_ [at_ 15 25 KSwitchCase [num 20 21; mk KStmts [T 23 25 KExprStmt [var 23 24 "y"]]];
           at_ 26 34 KSwitchCase [none; mk KStmts []]]]].
Example ex_switch_counters : run_counters plain_env ex_switch = Some [CS 0; CB 0 0; CS 1; CB 0 1].
Proof. vm_compute. reflexivity. Qed.

(** [function f(a = 1) {}] *)
Definition ex_default : node :=
  module_ 1 22 [T 1 22 KFnDecl [at_ 10 11 (KIdent "f") [];
    fn_ 1 22 [at_ 12 17 KAssignPat [at_ 12 13 (KIdent "a") []; num 16 17]] (block 19 21 [])]].
Example ex_default_counters : run_counters plain_env ex_default = Some [CB 0 0; CF 0].
Proof. vm_compute. reflexivity. Qed.
