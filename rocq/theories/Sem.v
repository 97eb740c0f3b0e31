(** A definitional interpreter for JavaScript programs, original or instrumented.

    It is used to state what running a program does (C34, C43).  Control flow - statement
    lists, blocks and their scopes, hoisted functions, [if], loops, [switch], [try],
    labels, [return]/[throw]/[break]/[continue], variable declarations, default values,
    conditional, logical, sequence and parenthesised expressions, function bodies - is
    interpreted here.  Everything else (literals, identifiers, operators, member access,
    calls, object and class literals, patterns, iteration, ...) is played by an arbitrary
    [host]: for such a node the host follows a strategy that may evaluate children in any
    order and number, in scopes of its choosing, turn children into functions, call
    functions, and look at and change its own state.  A theorem that quantifies over the
    host therefore covers every environment; since the host's state may record all that
    happens, equality of host states is equality of interactions in order.

    Function values are numbers into a store of code owned by the interpreter, so the host
    cannot read the source of a function.

    Not covered: suspending a function in the middle ([yield], [await]), the completion
    values of statements (visible to [eval] only) and the [name] a function takes from the
    place of its definition (a host strategy does not see whether a child is directly a
    function; C42 is about that). *)
From Coq Require Import NArith String List Bool Lia PeanoNat.
Import ListNotations.
From Verif Require Import Base Oxide Hints Ast.
Open Scope N_scope.

(** ** What a run can tell about the places it passes *)
Inductive event :=
| EStmt (sp : span)                   (* the statement at [sp] is reached *)
| EInit (sp : span)                   (* the initialiser of the declarator or field at [sp] is evaluated *)
| EFn (sp : span)                     (* the body of the function at [sp] is entered *)
| EArm (sp : span) (alt : bool)       (* [if] at [sp]: then side, else side *)
| ECond (sp : span) (alt : bool)      (* conditional expression *)
| ECase (sp : span)                   (* the statements of the [case] at [sp] are entered *)
| EOper (sp : span) (right_ : bool)   (* an operand of the logical expression at [sp] is evaluated *)
| EDefault (sp : span).               (* the default value of the pattern at [sp] is evaluated *)

(** How a node is evaluated *)
Inductive mode :=
| MRead                  (* as an expression or statement *)
| MCall                  (* as the code of a function that is called *)
| MBind (vk : varkind)   (* as a pattern that takes the input value *)
| MDecl (vk : varkind)   (* a list of declarators *)
| MIter (vk : varkind)   (* the declaration of a [for]-[in] or [for]-[of] loop *)
| MSwitch                (* a list of cases, the input being the discriminant *)
| MMatch                 (* a case: compare with the discriminant *)
| MFrom.                 (* a case: execute *)

(** The result of an expression: a value, or a reference still to be read *)
Inductive rv (V R : Type) := RVal (v : V) | RRef (r : R).
Arguments RVal {V R}. Arguments RRef {V R}.

Inductive completion (V R : Type) :=
| CNorm (r : rv V R) | CThrow (v : V) | CBreak (l : option string) | CCont (l : option string)
| CRet (v : V)
| CHit      (* a case matches *)
| CFuel     (* the bound on calls and iterations is exhausted *)
| CStuck.   (* not a program of the language *)
Arguments CNorm {V R}. Arguments CThrow {V R}. Arguments CBreak {V R}. Arguments CCont {V R}.
Arguments CRet {V R}. Arguments CHit {V R}. Arguments CFuel {V R}. Arguments CStuck {V R}.

(** What a host strategy does next *)
Inductive action (V R X K : Type) :=
| ADone (c : completion V R)
| AEval (i : nat) (m : mode) (x : X) (v : V) (k : K)   (* evaluate child [i] in scope [x] on [v] *)
| AClose (i : option nat) (k : K)                      (* make this node or child [i] a function *)
| ACall (f : nat) (x : X) (v : V) (k : K).             (* run the code of function [f] *)
Arguments ADone {V R X K}. Arguments AEval {V R X K}. Arguments AClose {V R X K}. Arguments ACall {V R X K}.

Inductive answer (V R : Type) := AnsC (c : completion V R) | AnsF (f : nat).
Arguments AnsC {V R}. Arguments AnsF {V R}.

Record host := mkHost {
  hV : Type;      (* values *)
  hR : Type;      (* references *)
  hX : Type;      (* scopes *)
  hH : Type;      (* the state of the world *)
  hK : Type;      (* suspended strategies *)
  h_undef : hV;
  h_is_undef : hV -> bool;
  h_truthy : hV -> bool;
  h_nullish : hV -> bool;
  h_same : hV -> hV -> bool;    (* === *)
  (* play a node: kind, which children are absent, mode, labels, scope, input *)
  h_start : kind -> list bool -> mode -> list string -> hX -> hV -> hH -> action hV hR hX hK * hH;
  h_resume : hK -> answer hV hR -> hH -> action hV hR hX hK * hH;
  h_get : hR -> hH -> action hV hR hX hK * hH;     (* GetValue *)
  (* a new scope with the given directives and declarations *)
  h_scope : list string -> list (N * string) -> hX -> hH -> hX * hH;
  h_copy : hX -> hH -> hX * hH;                    (* per-iteration scope of [for] *)
  h_fun : string -> nat -> hX -> hH -> hH;         (* bind a hoisted function *)
  h_with : hV -> hX -> hH -> (hV + hX) * hH;       (* object scope, or an exception *)
  h_test : N -> hV -> hX -> hH -> action hV hR hX hK * hH  (* the tests of reportLogic, 61-189 of create_increase_true_expr.rs *)
}.

(** ** Static semantics *)

(** The names a pattern binds *)
Fixpoint pat_names (t : node) : list string :=
  match t with Node k _ cs =>
    match k with
    | KIdent x => [x]
    | KExpr => []
    | _ => flat_map pat_names cs
    end
  end.

(** The names declared with [var] in a function body *)
Fixpoint var_names (t : node) : list string :=
  match t with Node k _ cs =>
    match k with
    | KExpr | KFunction | KArrow | KClass | KTs => []
    | KVarDecl VVar => flat_map pat_names cs
    | _ => flat_map var_names cs
    end
  end.

(** The declaration in a statement, module item or export *)
Definition decl_view (t : node) : option node :=
  match t with
  | Node KStmt _ [d] => Some d
  | Node KModuleDecl _ [Node KExportDecl _ [d]] => Some d
  | _ => None
  end.
Definition named (code : N) (id : node) : list (N * string) :=
  match nkind id with KIdent x => [(code, x)] | _ => [] end.
Definition lex_decl (d : node) : list (N * string) :=
  match d with
  | Node (KVarDecl VLet) _ cs => map (pair 0) (flat_map pat_names cs)
  | Node (KVarDecl VConst) _ cs => map (pair 1) (flat_map pat_names cs)
  | Node KClassDecl _ (id :: _) => named 2 id
  | Node KFnDecl _ (id :: _) => named 3 id
  | _ => []
  end.
(** What a statement declares in its block *)
Definition lex_of (t : node) : list (N * string) :=
  match decl_view t with Some d => lex_decl d | None => [] end.
Definition lex_names (ss : list node) : list (N * string) := flat_map lex_of ss.

(** The functions a block declares: name and code *)
Definition fn_of (t : node) : list (string * node) :=
  match decl_view t with
  | Some (Node KFnDecl _ [id; fn]) => match nkind id with KIdent x => [(x, fn)] | _ => [] end
  | _ => []
  end.
Definition fns_of (ss : list node) : list (string * node) := flat_map fn_of ss.

(** The directive prologue *)
Definition str_stmt (t : node) : option string :=
  match expr_stmt_view t with
  | Some x => match expr_view x with
              | Some (_, y) => match nkind y with KStr v => Some v | _ => None end
              | None => None
              end
  | None => None
  end.
Fixpoint prologue (ss : list node) : list string :=
  match ss with
  | [] => []
  | s :: ss' => match str_stmt s with Some v => v :: prologue ss' | None => [] end
  end.
Definition body_stmts (b : node) : list node :=
  match block_view b with Some (_, _, _, ss) => ss | None => [] end.
Definition directives (b : node) : list string := prologue (body_stmts b).

Definition label_of (t : node) : option string :=
  match nkind t with KIdent l => Some l | _ => None end.

(** Children whose value (not reference) their parent uses *)
Definition vpos (k : kind) (i : nat) : bool :=
  match k with
  | KVarDeclarator | KClassProp | KPrivateProp | KAssignPat => Nat.eqb i 1
  | KCond => Nat.eqb i 1 || Nat.eqb i 2
  | KBin op => is_logical_op op
  | _ => false
  end.
(** Children that are the body of an [if], loop or [with] *)
Definition bpos (k : kind) (i : nat) : bool :=
  match k with
  | KIf => Nat.eqb i 1 || Nat.eqb i 2
  | KWhile | KDoWhile | KWith => Nat.eqb i 1
  | KForIn | KForOf => Nat.eqb i 2
  | KFor => Nat.eqb i 3
  | _ => false
  end.

(** Children that can be functions by themselves (the body of an arrow function or accessor
    is not, the node is) *)
Definition closable (k : kind) (i : nat) : bool :=
  negb (vpos k i || bpos k i ||
        match k with KArrow => Nat.eqb i 1 | KGetter => Nat.eqb i 2 | KSetter => Nat.eqb i 3 | _ => false end).

(** Nodes that are the code of a function themselves *)
Definition self_closable (k : kind) : bool :=
  match k with KArrow | KGetter | KSetter => true | _ => false end.

Section Sem.
Variable h : host.
Notation V := (hV h). Notation R := (hR h). Notation X := (hX h). Notation K := (hK h).
Notation compl := (completion V R).

Record ctx := mkCtx { cx_sc : X; cx_mode : mode; cx_labs : list string; cx_in : V }.

Record state := mkState {
  hs : hH h;                (* the world *)
  funs : list node;         (* code of the functions made so far *)
  evs : list event;         (* places passed, latest first *)
  cnt : list counter;       (* counters incremented, latest first *)
  tmp : V                   (* the temporary of reportLogic *)
}.
Definition set_hs (w : hH h) (s : state) := mkState w (funs s) (evs s) (cnt s) (tmp s).
Definition add_fun (c : node) (s : state) := mkState (hs s) (funs s ++ [c]) (evs s) (cnt s) (tmp s).
Definition tick (c : counter) (s : state) := mkState (hs s) (funs s) (evs s) (c :: cnt s) (tmp s).
Definition set_tmp (v : V) (s : state) := mkState (hs s) (funs s) (evs s) (cnt s) v.
(** Nodes without position leave no trace. *)
Definition log (sp : span) (ev : event) (s : state) : state :=
  if (lo sp =? 0) && (hi sp =? 0) then s else mkState (hs s) (funs s) (ev :: evs s) (cnt s) (tmp s).

Definition den := ctx -> state -> compl * state.
Definition uv : compl := CNorm (RVal (h_undef h)).
Definition stuck (s : state) : compl * state := (CStuck, s).

(** Completions a host or handler cannot intercept *)
Definition final (c : compl) : bool := match c with CFuel | CStuck | CHit => true | _ => false end.

Definition rd (cx : ctx) : ctx := mkCtx (cx_sc cx) MRead [] (h_undef h).
Definition in_mode (m : mode) (v : V) (cx : ctx) : ctx := mkCtx (cx_sc cx) m [] v.
Definition in_scope (x : X) (cx : ctx) : ctx := mkCtx x (cx_mode cx) (cx_labs cx) (cx_in cx).

Definition bindr (r : compl * state) (f : rv V R -> state -> compl * state) : compl * state :=
  match fst r with CNorm v => f v (snd r) | c => (c, snd r) end.

Section Fuel.
(** Calling function [f] with one unit of fuel less *)
Variable call : nat -> X -> V -> state -> compl * state.
(** The bound on the steps of a strategy and the iterations of a loop *)
Variable fuel : nat.

(** Follow a strategy for the node [self] of kind [k] with children [cs] and meanings [ds]. *)
Fixpoint strat (n : nat) (k : kind) (self : node) (cs : list node) (ds : list den)
    (a : action V R X K) (s : state) : compl * state :=
  match n with
  | O => match a with ADone c => (c, s) | _ => (CFuel, s) end
  | S n' =>
      let answer (kk : K) (an : answer V R) (s1 : state) :=
        let (a', w) := h_resume h kk an (hs s1) in strat n' k self cs ds a' (set_hs w s1) in
      match a with
      | ADone c => (c, s)
      | AEval i m x v kk =>
          match nth_error ds i with
          | Some d =>
              let (c, s1) := d (mkCtx x m [] v) s in
              if final c then (c, s1) else answer kk (AnsC c) s1
          | None => stuck s
          end
      | AClose i kk =>
          match (match i with
                 | None => if self_closable k then Some self else None
                 | Some j => if closable k j then nth_error cs j else None
                 end) with
          | Some code => answer kk (AnsF (length (funs s))) (add_fun code s)
          | None => stuck s
          end
      | ACall f x v kk =>
          let (c, s1) := call f x v s in
          if final c then (c, s1) else answer kk (AnsC c) s1
      end
  end.

(** A strategy without children *)
Definition simple (a : action V R X K) (s : state) : compl * state :=
  strat fuel KNone (mk KNone []) [] [] a s.

(** GetValue *)
Definition getv (r : rv V R) (s : state) : compl * state :=
  match r with
  | RVal v => (CNorm (RVal v), s)
  | RRef r =>
      let (a, w) := h_get h r (hs s) in
      bindr (simple a (set_hs w s)) (fun r s1 => match r with RVal v => (CNorm (RVal v), s1) | RRef _ => stuck s1 end)
  end.

(** The value of an expression *)
Definition valued (d : den) (cx : ctx) (s : state) : compl * state := bindr (d (rd cx) s) getv.
Definition bindv (r : compl * state) (f : V -> state -> compl * state) : compl * state :=
  bindr r (fun r s => match r with RVal v => f v s | RRef _ => stuck s end).

(** Play an opaque node *)
Definition opaque (k : kind) (sp : span) (cs : list node) (ds : list den) (cx : ctx) (s : state)
  : compl * state :=
  let (a, w) := h_start h k (map is_none cs) (cx_mode cx) (cx_labs cx) (cx_sc cx) (cx_in cx) (hs s) in
  strat fuel k (Node k sp cs) cs ds a (set_hs w s).

(** Statements one after the other *)
Fixpoint run_list (ds : list den) (cx : ctx) (s : state) : compl * state :=
  match ds with
  | [] => (uv, s)
  | d :: ds' => bindr (d cx s) (fun _ s1 => run_list ds' cx s1)
  end.

(** Comma expressions *)
Fixpoint seq_vals (ds : list den) (cx : ctx) (s : state) : compl * state :=
  match ds with
  | [] => stuck s
  | [d] => valued d cx s
  | d :: ds' => bindr (valued d cx s) (fun _ s1 => seq_vals ds' cx s1)
  end.

(** Function objects for the functions declared in a block *)
Fixpoint hoist (fs : list (string * node)) (x : X) (s : state) : state :=
  match fs with
  | [] => s
  | (name, code) :: fs' =>
      let f := length (funs s) in
      let s1 := add_fun code s in
      hoist fs' x (set_hs (h_fun h name f x (hs s1)) s1)
  end.

(** Enter a block: a scope if something is declared, then the functions *)
Definition enter_block (decls : list (N * string)) (fs : list (string * node)) (x : X) (s : state)
  : X * state :=
  let (x1, s1) := match decls with
                  | [] => (x, s)
                  | _ => let (x1, w) := h_scope h [] decls x (hs s) in (x1, set_hs w s)
                  end in
  (x1, hoist fs x1 s1).

Definition sem_stmts (cs : list node) (ds : list den) (cx : ctx) (s : state) : compl * state :=
  match cx_mode cx with
  | MFrom => run_list ds (rd cx) s
  | _ =>
      let (x, s1) := enter_block (lex_names cs) (fns_of cs) (cx_sc cx) s in
      run_list ds (rd (in_scope x cx)) s1
  end.

(** A function or program scope *)
Definition enter_fn (dirs : list string) (vars : list string) (x : X) (s : state) : X * state :=
  let (x1, w) := h_scope h dirs (map (pair 4) vars) x (hs s) in (x1, set_hs w s).

Definition finish_fn (r : compl * state) : compl * state :=
  match fst r with
  | CNorm _ => (uv, snd r)
  | CRet v => (CNorm (RVal v), snd r)
  | CBreak _ | CCont _ => stuck (snd r)
  | c => (c, snd r)
  end.

(** Call the function at [sp]: bind the parameters, then run the body *)
Definition sem_fn (sp : span) (params : option den) (body : node) (dbody : den) (cx : ctx) (s : state)
  : compl * state :=
  let (x, s1) := enter_fn (directives body) (var_names body) (cx_sc cx) s in
  bindr (match params with
         | Some dp => dp (mkCtx x (MBind VLet) [] (cx_in cx)) s1
         | None => (uv, s1)
         end)
    (fun _ s2 =>
       let cb := mkCtx x MRead [] (h_undef h) in
       if is_expr body then
         finish_fn (bindv (valued dbody cb (log (nspan body) (EStmt (nspan body)) (log sp (EFn sp) s2)))
                      (fun v s3 => (CRet v, s3)))
       else finish_fn (dbody cb (log sp (EFn sp) s2))).

(** Does the loop with labels [ls] go on after its body completed with [c]? *)
Definition goes_on (ls : list string) (c : compl) : bool :=
  match c with
  | CNorm _ => true
  | CCont None => true
  | CCont (Some l) => existsb (String.eqb l) ls
  | _ => false
  end.
Definition leave (c : compl) : compl :=
  match c with CBreak None => uv | c => c end.

(** [while]; [for] is a [while] with an update *)
Fixpoint loop (n : nat) (test update : option den) (body : den) (ls : list string) (cx : ctx)
    (per : X -> state -> X * state) (s : state) : compl * state :=
  match n with
  | O => (CFuel, s)
  | S n' =>
      bindv (match test with
             | Some d => valued d cx s
             | None => (uv, s)
             end)
        (fun v s1 =>
           if match test with Some _ => h_truthy h v | None => true end then
             let (c, s2) := body (rd cx) s1 in
             if goes_on ls c then
               let (x, s3) := per (cx_sc cx) s2 in
               let cx' := in_scope x cx in
               bindr (match update with Some d => valued d cx' s3 | None => (uv, s3) end)
                 (fun _ s4 => loop n' test update body ls cx' per s4)
             else (leave c, s2)
           else (uv, s1))
  end.
Fixpoint do_loop (n : nat) (test body : den) (ls : list string) (cx : ctx) (s : state) : compl * state :=
  match n with
  | O => (CFuel, s)
  | S n' =>
      let (c, s1) := body (rd cx) s in
      if goes_on ls c then
        bindv (valued test cx s1)
          (fun v s2 => if h_truthy h v then do_loop n' test body ls cx s2 else (uv, s2))
      else (leave c, s1)
  end.
Definition opt (t : node) (d : den) : option den := if is_none t then None else Some d.

Definition copy_scope (x : X) (s : state) : X * state :=
  let (x1, w) := h_copy h x (hs s) in (x1, set_hs w s).

Definition sem_for (i t u : node) (di dt du db : den) (cx : ctx) (s : state) : compl * state :=
  let decls := lex_decl i in
  let (x, s1) := enter_block decls [] (cx_sc cx) s in
  let cx1 := in_scope x cx in
  bindr (if is_expr i then valued di cx1 s1 else di (rd cx1) s1)
    (fun _ s2 =>
       let per := match decls with [] => fun x s => (x, s) | _ => copy_scope end in
       let (x2, s3) := per x s2 in
       loop fuel (opt t dt) (opt u du) db (cx_labs cx) (in_scope x2 cx) per s3).

(** The cases of a [switch]: find the first match, else the default, and run from there. *)
Fixpoint find_case (ds : list den) (cx : ctx) (i : nat) (s : state) : (compl + option nat) * state :=
  match ds with
  | [] => (inr None, s)
  | d :: ds' =>
      match d (in_mode MMatch (cx_in cx) cx) s with
      | (CHit, s1) => (inr (Some i), s1)
      | (CNorm _, s1) => find_case ds' cx (S i) s1
      | (c, s1) => (inl c, s1)
      end
  end.
Definition is_default (t : node) : bool :=
  match t with Node KSwitchCase _ (test :: _) => is_none test | _ => false end.
Fixpoint default_index (cs : list node) (i : nat) : option nat :=
  match cs with [] => None | c :: cs' => if is_default c then Some i else default_index cs' (S i) end.
Definition sem_cases (cs : list node) (ds : list den) (cx : ctx) (s : state) : compl * state :=
  match find_case ds cx 0 s with
  | (inl c, s1) => (c, s1)
  | (inr hit, s1) =>
      match (match hit with Some i => Some i | None => default_index cs 0 end) with
      | Some i => run_list (skipn i ds) (in_mode MFrom (h_undef h) cx) s1
      | None => (uv, s1)
      end
  end.
Definition case_stmts (c : node) : list node :=
  match c with Node KSwitchCase _ [_; Node KStmts _ ss] => ss | _ => [] end.
Definition case_list (t : node) : list node := match t with Node KList _ cs => cs | _ => [] end.
Definition sem_switch (cases : node) (dd dc : den) (cx : ctx) (s : state) : compl * state :=
  bindv (valued dd cx s)
    (fun v s1 =>
       let ss := flat_map case_stmts (case_list cases) in
       let (x, s2) := enter_block (lex_names ss) (fns_of ss) (cx_sc cx) s1 in
       let (c, s3) := dc (mkCtx x MSwitch [] v) s2 in
       (leave c, s3)).
Definition sem_case (sp : span) (t : node) (dt db : den) (cx : ctx) (s : state) : compl * state :=
  match cx_mode cx with
  | MMatch =>
      if is_none t then (uv, s)
      else bindv (valued dt cx s) (fun v s1 => if h_same h (cx_in cx) v then (CHit, s1) else (uv, s1))
  | MFrom => db cx (log sp (ECase sp) s)
  | _ => stuck s
  end.

Definition sem_try (hd fin : node) (db dh df : den) (cx : ctx) (s : state) : compl * state :=
  let r := match db (rd cx) s with
           | (CThrow v, s1) => if is_none hd then (CThrow v, s1) else dh (in_mode (MBind VLet) v cx) s1
           | r => r
           end in
  if is_none fin || final (fst r) then r
  else bindr (df (rd cx) (snd r)) (fun _ s2 => (fst r, s2)).

Definition sem_declarator (sp : span) (init : node) (dn di : den) (cx : ctx) (s : state) : compl * state :=
  if is_none init then
    match cx_mode cx with
    | MIter vk => dn (in_mode (MBind vk) (cx_in cx) cx) s
    | MBind VVar => (uv, s)
    | _ => dn (in_mode (cx_mode cx) (h_undef h) cx) s
    end
  else bindv (valued di cx (log sp (EInit sp) s)) (fun v s1 => dn (in_mode (cx_mode cx) v cx) s1).

Definition stop_left (op : binop) (v : V) : bool :=
  match op with
  | OpOr => h_truthy h v
  | OpAnd => negb (h_truthy h v)
  | OpNullish => negb (h_nullish h v)
  | OpOther _ => false
  end.
Definition sem_logical (op : binop) (sp : span) (dl dr : den) (cx : ctx) (s : state) : compl * state :=
  bindv (valued dl cx (log sp (EOper sp false) s))
    (fun v s1 =>
       if stop_left op v then (CNorm (RVal v), s1)
       else valued dr cx (log sp (EOper sp true) s1)).

Definition sem_cond (sp : span) (dt dc da : den) (cx : ctx) (s : state) : compl * state :=
  bindv (valued dt cx s)
    (fun v s1 =>
       if h_truthy h v then valued dc cx (log sp (ECond sp false) s1)
       else valued da cx (log sp (ECond sp true) s1)).

Definition sem_if (sp : span) (alt : node) (dt dc da : den) (cx : ctx) (s : state) : compl * state :=
  bindv (valued dt cx s)
    (fun v s1 =>
       if h_truthy h v then dc (rd cx) (log sp (EArm sp false) s1)
       else if is_none alt then (uv, log sp (EArm sp true) s1)
            else da (rd cx) (log sp (EArm sp true) s1)).

Definition sem_assign_pat (sp : span) (dl dr : den) (cx : ctx) (s : state) : compl * state :=
  if h_is_undef h (cx_in cx) then
    bindv (valued dr cx (log sp (EDefault sp) s)) (fun v s1 => dl (in_mode (cx_mode cx) v cx) s1)
  else dl cx s.

Definition sem_labeled (l : node) (db : den) (cx : ctx) (s : state) : compl * state :=
  match label_of l with
  | Some x =>
      let (c, s1) := db (mkCtx (cx_sc cx) MRead (x :: cx_labs cx) (h_undef h)) s in
      match c with
      | CBreak (Some y) => (if String.eqb x y then uv else c, s1)
      | _ => (c, s1)
      end
  | None => stuck s
  end.

Definition sem_with (dobj db : den) (cx : ctx) (s : state) : compl * state :=
  bindv (valued dobj cx s)
    (fun v s1 =>
       let (r, w) := h_with h v (cx_sc cx) (hs s1) in
       let s2 := set_hs w s1 in
       match r with
       | inl ex => (CThrow ex, s2)
       | inr x => db (mkCtx x MRead [] (h_undef h)) s2
       end).

(** A field: the initialiser, when the host asks for it, is an expression whose value counts. *)
Definition field_init (sp : span) (d : den) : den :=
  fun cx s => valued d cx (log sp (EInit sp) s).
Definition field_dens (sp : span) (ds : list den) : list den :=
  match ds with n :: v :: rest => n :: field_init sp v :: rest | _ => ds end.

(** The body of a loop is executed as a statement, whatever the host asks for. *)
Definition iter_dens (ds : list den) : list den :=
  match ds with
  | [l; r; b] => [l; r; fun cx s => b (rd cx) s]
  | _ => []
  end.

(** The meaning of a node from the meanings of its children *)
Definition sem (k : kind) (sp : span) (cs : list node) (ds : list den) : den :=
  fun cx s =>
  let st := log sp (EStmt sp) s in
  match k, cs, ds with
  (* layers *)
  | (KExpr | KParen | KInjParen | KModuleDecl), _, [d] => d cx s
  | KStmt, _, [d] => bindr (d cx s) (fun _ s1 => (uv, s1))
  | (KNone | KTs | KFnDecl | KTemplateFn _ | KTemplateCall | KNullLit), _, _ => (uv, s)
  | KBlock _, _, [d] => d (rd cx) s
  | (KStmts | KModuleItems), _, _ => sem_stmts cs ds cx s
  | KModule, [b], [d] =>
      let (x, s1) := enter_fn [] (var_names b) (cx_sc cx) s in d (rd (in_scope x cx)) s1
  | KScript, [b], [d] =>
      let (x, s1) := enter_fn (prologue (nkids b)) (var_names b) (cx_sc cx) s in
      d (rd (in_scope x cx)) s1
  (* injected code *)
  | KCounter c, _, _ => (uv, tick c s)
  | KTempAssign, _, [d] => bindv (valued d cx s) (fun v s1 => (CNorm (RVal v), set_tmp v s1))
  | KTempRead, _, _ => (CNorm (RVal (tmp s)), s)
  | KTempTest n, _, _ =>
      let (a, w) := h_test h n (tmp s) (cx_sc cx) (hs s) in simple a (set_hs w s)
  (* statements *)
  | KExprStmt, _, [d] => bindr (valued d cx st) (fun _ s1 => (uv, s1))
  | KReturn, [x], [d] =>
      if is_none x then (CRet (h_undef h), st) else bindv (valued d cx st) (fun v s1 => (CRet v, s1))
  | KThrow, _, [d] => bindv (valued d cx st) (fun v s1 => (CThrow v, s1))
  | KBreak, [l], _ => (CBreak (label_of l), st)
  | KContinue, [l], _ => (CCont (label_of l), st)
  | KLabeled, [l; _], [_; d] => sem_labeled l d cx st
  | KIf, [_; _; alt], [dt; dc; da] => sem_if sp alt dt dc da cx st
  | KWhile, _, [dt; db] => loop fuel (Some dt) None db (cx_labs cx) cx (fun x s => (x, s)) st
  | KDoWhile, _, [dt; db] => do_loop fuel dt db (cx_labs cx) cx st
  | KFor, [i; t; u; _], [di; dt; du; db] => sem_for i t u di dt du db cx st
  | (KForIn | KForOf), _, _ => opaque k sp cs (iter_dens ds) cx st
  | KSwitch, [_; cases], [dd; dc] => sem_switch cases dd dc cx st
  | KSwitchCase, [t; _], [dt; db] => sem_case sp t dt db cx s
  | KTry, [_; hd; fin], [db; dh; df] => sem_try hd fin db dh df cx st
  | KWith, _, [dobj; db] => sem_with dobj db cx st
  (* declarations *)
  | KExportDecl, _, [d] => d cx st
  | KVarDecl vk, _, [d] =>
      match cx_mode cx with
      | MBind _ => d (in_mode (MIter vk) (cx_in cx) cx) s
      | _ => d (in_mode (MDecl vk) (h_undef h) cx) s
      end
  | KList, _, _ =>
      match cx_mode cx with
      | MDecl vk => run_list ds (in_mode (MBind vk) (h_undef h) cx) s
      | MIter vk => run_list ds (in_mode (MIter vk) (cx_in cx) cx) s
      | MSwitch => sem_cases cs ds cx s
      | _ => opaque k sp cs ds cx s
      end
  | KVarDeclarator, [_; init], [dn; di] => sem_declarator sp init dn di cx s
  | KAssignPat, _, [dl; dr] => sem_assign_pat sp dl dr cx s
  (* functions *)
  | KFunction, [_; _; b; _], [dp; _; db; _] =>
      match cx_mode cx with MCall => sem_fn sp (Some dp) b db cx s | _ => stuck s end
  | KArrow, [_; b; _], [dp; db; _] =>
      match cx_mode cx with MCall => sem_fn sp (Some dp) b db cx s | _ => opaque k sp cs [] cx s end
  | KGetter, [_; _; b], [dk; dt; db] =>
      match cx_mode cx with MCall => sem_fn sp None b db cx s | _ => opaque k sp cs [dk; dt] cx s end
  | KSetter, [_; _; _; b], [dk; dt; dp; db] =>
      match cx_mode cx with MCall => sem_fn sp (Some dp) b db cx s | _ => opaque k sp cs [dk; dt] cx s end
  | (KClassProp | KPrivateProp), _, _ => opaque k sp cs (field_dens sp ds) cx s
  (* expressions *)
  | (KSeq | KInjSeq | KTempSeq), _, _ => seq_vals ds cx s
  | KCond, _, [dt; dc; da] => sem_cond sp dt dc da cx s
  | KBin op, _, _ =>
      if is_logical_op op then
        match ds with [dl; dr] => sem_logical op sp dl dr cx s | _ => stuck s end
      else opaque k sp cs ds cx s
  | (KDebugger | KExportDefaultDecl | KFnExpr | KClassDecl | KClassExpr | KClass
     | KClassMethod | KMethodProp | KTaggedTpl | KIdent _ | KPropIdent _ | KStr _ | KOther _), _, _ =>
      opaque k sp cs ds cx s
  | _, _, _ => stuck s
  end.

Fixpoint ev (t : node) : den :=
  match t with Node k sp cs => sem k sp cs (map ev cs) end.
End Fuel.

(** Running with [n] nested calls and [n] iterations per loop or strategy *)
Fixpoint run (n : nat) : node -> den :=
  ev (match n with
      | O => fun _ _ _ s => (CFuel, s)
      | S n' => fun f x v s =>
          match nth_error (funs s) f with
          | Some code => run n' code (mkCtx x MCall [] v) s
          | None => stuck s
          end
      end) n.

(** A run of a whole program *)
Definition run_program (n : nat) (t : node) (x : X) (w : hH h) : compl * state :=
  run n t (mkCtx x MRead [] (h_undef h)) (mkState w [] [] [] (h_undef h)).
End Sem.
