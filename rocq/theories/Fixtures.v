(** The repository's test fixtures (spec/fixtures/*.yaml), generated by tools/fixtures.js; debug-test.yaml
    repeats a fixture, jsx.yaml is not JavaScript and strict.yaml.skipped is not run by the repository. *)
From Coq Require Import NArith ZArith String List Bool.
Import ListNotations.
From Verif Require Import Base Oxide SourceCov Hints Ast Visitor VisitorEx JsHost FixtureRun.
Open Scope string_scope. Open Scope list_scope. Open Scope N_scope.

Definition types : node := mk KTs [].

(** arrow-fn.yaml: es6 arrow function expression *)
Definition fx_arrow_fn_1 : fixture := mkFixture
  (at_ 1 49 KModule [mk KModuleItems [(T 1 17 (KVarDecl VVar) [(list_ [(at_ 5 17 KVarDeclarator [(at_ 5 10 (KIdent "input") []);
  (X 13 17 (KIdent "args") [])])])]);
  (T 18 48 KExprStmt [(X 18 48 (KOther 10) [(at_ 18 24 (KIdent "output") []);
  (X 27 48 (KOther 3) [(X 27 36 (KOther 1) [(X 27 32 (KIdent "input") []);
  (at_ 33 36 (KPropIdent "map") [])]);
  (at_ 37 47 (KOther 4) [(X 37 47 KArrow [(list_ [(at_ 37 38 (KIdent "x") [])]);
  (X 42 47 (KBin (OpOther 2)) [(X 42 43 (KIdent "x") []);
  (X 46 47 (KIdent "x") [])]);
  types])])])])])]])
  [1; 18; 49]
  []
  false [].
Definition fx_arrow_fn_1_tests : list test := [mkTest (LArr [(LNum (1)%Z); (LNum (2)%Z); (LNum (3)%Z); (LNum (4)%Z)]) (LArr [(LNum (1)%Z); (LNum (4)%Z); (LNum (9)%Z); (LNum (16)%Z)])
    [(1, 1); (2, 4)]
    [(0, 1); (1, 1); (2, 4)]
    [(0, 4)]
    []
    []; mkTest (LArr []) (LArr [])
    [(1, 1); (2, 1)]
    [(0, 1); (1, 1); (2, 0)]
    [(0, 0)]
    []
    []].

(** arrow-fn.yaml: es6 arrow function expression - multiple args *)
Definition fx_arrow_fn_2 : fixture := mkFixture
  (at_ 1 72 KModule [mk KModuleItems [(T 1 17 (KVarDecl VVar) [(list_ [(at_ 5 17 KVarDeclarator [(at_ 5 10 (KIdent "input") []);
  (X 13 17 (KIdent "args") [])])])]);
  (T 18 71 KExprStmt [(X 18 71 (KOther 10) [(at_ 18 24 (KIdent "output") []);
  (X 27 71 (KOther 3) [(X 27 39 (KOther 1) [(X 27 32 (KIdent "input") []);
  (at_ 33 39 (KPropIdent "reduce") [])]);
  (at_ 40 67 (KOther 4) [(X 40 67 KArrow [(list_ [(at_ 41 45 (KIdent "memo") []);
  (at_ 47 51 (KIdent "item") [])]);
  (X 56 67 (KBin (OpOther 0)) [(X 56 60 (KIdent "memo") []);
  (X 63 67 (KIdent "item") [])]);
  types])]);
  (at_ 69 70 (KOther 4) [(X 69 70 (KOther 1000) [])])])])])]])
  [1; 18; 72]
  []
  false [].
Definition fx_arrow_fn_2_tests : list test := [mkTest (LArr [(LNum (1)%Z); (LNum (2)%Z); (LNum (3)%Z); (LNum (4)%Z)]) (LNum (10)%Z)
    [(1, 1); (2, 4)]
    [(0, 1); (1, 1); (2, 4)]
    [(0, 4)]
    []
    []; mkTest (LArr []) (LNum (0)%Z)
    [(1, 1); (2, 1)]
    [(0, 1); (1, 1); (2, 0)]
    [(0, 0)]
    []
    []].

(** arrow-fn.yaml: es6 arrow function block *)
Definition fx_arrow_fn_3 : fixture := mkFixture
  (at_ 1 61 KModule [mk KModuleItems [(T 1 17 (KVarDecl VVar) [(list_ [(at_ 5 17 KVarDeclarator [(at_ 5 10 (KIdent "input") []);
  (X 13 17 (KIdent "args") [])])])]);
  (T 18 60 KExprStmt [(X 18 60 (KOther 10) [(at_ 18 24 (KIdent "output") []);
  (X 27 60 (KOther 3) [(X 27 36 (KOther 1) [(X 27 32 (KIdent "input") []);
  (at_ 33 36 (KPropIdent "map") [])]);
  (at_ 37 59 (KOther 4) [(X 37 59 KArrow [(list_ [(at_ 37 38 (KIdent "x") [])]);
  (block 42 59 [(T 44 57 KReturn [(X 51 56 (KBin (OpOther 2)) [(X 51 52 (KIdent "x") []);
  (X 55 56 (KIdent "x") [])])])]);
  types])])])])])]])
  [1; 18; 61]
  []
  false [].
Definition fx_arrow_fn_3_tests : list test := [mkTest (LArr [(LNum (1)%Z); (LNum (2)%Z); (LNum (3)%Z); (LNum (4)%Z)]) (LArr [(LNum (1)%Z); (LNum (4)%Z); (LNum (9)%Z); (LNum (16)%Z)])
    [(1, 1); (2, 4)]
    [(0, 1); (1, 1); (2, 4)]
    [(0, 4)]
    []
    []; mkTest (LArr []) (LArr [])
    [(1, 1); (2, 1)]
    [(0, 1); (1, 1); (2, 0)]
    [(0, 0)]
    []
    []].

(** arrow-fn.yaml: es6 arrow function block - multiple args *)
Definition fx_arrow_fn_4 : fixture := mkFixture
  (at_ 1 83 KModule [mk KModuleItems [(T 1 17 (KVarDecl VVar) [(list_ [(at_ 5 17 KVarDeclarator [(at_ 5 10 (KIdent "input") []);
  (X 13 17 (KIdent "args") [])])])]);
  (T 18 82 KExprStmt [(X 18 82 (KOther 10) [(at_ 18 24 (KIdent "output") []);
  (X 27 82 (KOther 3) [(X 27 39 (KOther 1) [(X 27 32 (KIdent "input") []);
  (at_ 33 39 (KPropIdent "reduce") [])]);
  (at_ 40 78 (KOther 4) [(X 40 78 KArrow [(list_ [(at_ 41 45 (KIdent "memo") []);
  (at_ 47 51 (KIdent "item") [])]);
  (block 56 78 [(T 58 76 KReturn [(X 65 76 (KBin (OpOther 0)) [(X 65 69 (KIdent "memo") []);
  (X 72 76 (KIdent "item") [])])])]);
  types])]);
  (at_ 80 81 (KOther 4) [(X 80 81 (KOther 1000) [])])])])])]])
  [1; 18; 83]
  []
  false [].
Definition fx_arrow_fn_4_tests : list test := [mkTest (LArr [(LNum (1)%Z); (LNum (2)%Z); (LNum (3)%Z); (LNum (4)%Z)]) (LNum (10)%Z)
    [(1, 1); (2, 4)]
    [(0, 1); (1, 1); (2, 4)]
    [(0, 4)]
    []
    []; mkTest (LArr []) (LNum (0)%Z)
    [(1, 1); (2, 1)]
    [(0, 1); (1, 1); (2, 0)]
    [(0, 0)]
    []
    []].

(** arrow-fn.yaml: complex arrow fn *)
Definition fx_arrow_fn_5 : fixture := mkFixture
  (at_ 1 130 KModule [mk KModuleItems [(T 1 78 (KVarDecl VConst) [(list_ [(at_ 7 78 KVarDeclarator [(at_ 7 12 (KIdent "arrow") []);
  (X 15 78 KArrow [(list_ [(at_ 15 16 (KIdent "a") [])]);
  (X 20 78 KParen [(X 24 76 KArrow [(list_ [(at_ 24 25 (KIdent "b") [])]);
  (X 29 76 KParen [(X 35 72 KArrow [(list_ [(at_ 35 36 (KIdent "c") [])]);
  (X 40 72 KParen [(X 48 66 KArrow [(list_ [(at_ 48 49 (KIdent "d") [])]);
  (X 53 66 (KBin (OpOther 0)) [(X 53 62 (KBin (OpOther 0)) [(X 53 58 (KBin (OpOther 0)) [(X 53 54 (KIdent "a") []);
  (X 57 58 (KIdent "b") [])]);
  (X 61 62 (KIdent "c") [])]);
  (X 65 66 (KIdent "d") [])]);
  types])]);
  types])]);
  types])]);
  types])])])]);
  (T 79 129 KExprStmt [(X 79 129 (KOther 10) [(at_ 79 85 (KIdent "output") []);
  (X 88 129 (KOther 3) [(X 88 120 (KOther 3) [(X 88 111 (KOther 3) [(X 88 102 (KOther 3) [(X 88 93 (KIdent "arrow") []);
  (at_ 94 101 (KOther 4) [(X 94 101 (KOther 1) [(X 94 98 (KIdent "args") []);
  (at_ 99 100 (KOther 2) [(X 99 100 (KOther 1000) [])])])])]);
  (at_ 103 110 (KOther 4) [(X 103 110 (KOther 1) [(X 103 107 (KIdent "args") []);
  (at_ 108 109 (KOther 2) [(X 108 109 (KOther 1001) [])])])])]);
  (at_ 112 119 (KOther 4) [(X 112 119 (KOther 1) [(X 112 116 (KIdent "args") []);
  (at_ 117 118 (KOther 2) [(X 117 118 (KOther 1002) [])])])])]);
  (at_ 121 128 (KOther 4) [(X 121 128 (KOther 1) [(X 121 125 (KIdent "args") []);
  (at_ 126 127 (KOther 2) [(X 126 127 (KOther 1003) [])])])])])])])]])
  [1; 22; 31; 42; 67; 73; 77; 79; 130]
  []
  false [].
Definition fx_arrow_fn_5_tests : list test := [mkTest (LArr [(LNum (1)%Z); (LNum (2)%Z); (LNum (3)%Z); (LNum (4)%Z)]) (LNum (10)%Z)
    [(1, 1); (2, 1); (3, 1); (4, 1); (8, 1)]
    [(0, 1); (1, 1); (2, 1); (3, 1); (4, 1); (5, 1)]
    [(0, 1); (1, 1); (2, 1); (3, 1)]
    []
    []].

(** arrow-fn.yaml: arrow function name assignment *)
Definition fx_arrow_fn_6 : fixture := mkFixture
  (at_ 1 44 KModule [mk KModuleItems [(T 1 24 (KVarDecl VConst) [(list_ [(at_ 7 24 KVarDeclarator [(at_ 7 10 (KIdent "foo") []);
  (X 13 24 KArrow [(list_ [(at_ 14 17 (KIdent "bar") [])]);
  (block 22 24 []);
  types])])])]);
  (T 25 43 KExprStmt [(X 25 42 (KOther 10) [(at_ 25 31 (KIdent "output") []);
  (X 34 42 (KOther 1) [(X 34 37 (KIdent "foo") []);
  (at_ 38 42 (KPropIdent "name") [])])])])]])
  [1; 25; 44]
  []
  false [].
Definition fx_arrow_fn_6_tests : list test := [mkTest LUndef (LStr "foo")
    [(1, 1); (2, 1)]
    [(0, 1); (1, 1)]
    [(0, 0)]
    []
    []].

(** class-properties.yaml: class property declaration *)
Definition fx_class_properties_1 : fixture := mkFixture
  (at_ 1 86 KModule [mk KModuleItems [(T 1 42 KClassDecl [(at_ 7 10 (KIdent "Foo") []);
  (at_ 1 42 KClass [(list_ []);
  (list_ [(at_ 15 23 KClassProp [(at_ 15 18 (KPropIdent "bar") []);
  (X 21 22 (KOther 1001) []);
  types;
  (list_ [])]);
  (at_ 26 40 KClassProp [(at_ 26 39 (KPropIdent "uninitialized") []);
  none;
  types;
  (list_ [])])]);
  none;
  types])]);
  (T 43 85 KExprStmt [(X 43 85 (KOther 10) [(at_ 43 49 (KIdent "output") []);
  (X 52 85 KCond [(X 52 62 (KBin (OpOther 6)) [(X 52 56 (KIdent "args") []);
  (X 61 62 (KOther 1001) [])]);
  (X 65 78 (KOther 1) [(X 65 74 (KOther 5) [(X 69 72 (KIdent "Foo") [])]);
  (at_ 75 78 (KPropIdent "bar") [])]);
  (X 81 85 (KIdent "args") [])])])])]])
  [1; 13; 24; 41; 43; 86]
  []
  false [].
Definition fx_class_properties_1_tests : list test := [mkTest (LNum (1)%Z) (LNum (1)%Z)
    [(2, 1); (5, 1)]
    [(0, 1); (1, 1)]
    []
    [(0, [1; 0])]
    []; mkTest (LNum (2)%Z) (LNum (2)%Z)
    [(2, 0); (5, 1)]
    [(0, 0); (1, 1)]
    []
    [(0, [0; 1])]
    []].

(** class-properties.yaml: class private property declaration *)
Definition fx_class_properties_2 : fixture := mkFixture
  (at_ 1 122 KModule [mk KModuleItems [(T 1 78 KClassDecl [(at_ 7 10 (KIdent "Foo") []);
  (at_ 1 78 KClass [(list_ []);
  (list_ [(at_ 15 24 KPrivateProp [(at_ 15 19 (KOther 48) [(at_ 15 19 (KStr "#bar") [])]);
  (X 22 23 (KOther 1001) []);
  types;
  (list_ [])]);
  (at_ 27 58 KClassMethod [(at_ 31 34 (KPropIdent "bar") [none]);
  (at_ 27 58 KFunction [(list_ []);
  (list_ []);
  (block 37 58 [(T 39 56 KReturn [(X 46 55 (KOther 1) [(X 46 50 (KOther 44) []);
  (at_ 51 55 (KOther 48) [(at_ 51 55 (KStr "#bar") [])])])])]);
  types])]);
  (at_ 61 76 KPrivateProp [(at_ 61 75 (KOther 48) [(at_ 61 75 (KStr "#uninitialized") [])]);
  none;
  types;
  (list_ [])])]);
  none;
  types])]);
  (T 79 121 KExprStmt [(X 79 121 (KOther 10) [(at_ 79 85 (KIdent "output") []);
  (X 88 121 KCond [(X 88 98 (KBin (OpOther 6)) [(X 88 92 (KIdent "args") []);
  (X 97 98 (KOther 1001) [])]);
  (X 101 114 (KOther 1) [(X 101 110 (KOther 5) [(X 105 108 (KIdent "Foo") [])]);
  (at_ 111 114 (KPropIdent "bar") [])]);
  (X 117 121 (KIdent "args") [])])])])]])
  [1; 13; 25; 59; 77; 79; 122]
  []
  false [].
Definition fx_class_properties_2_tests : list test := [mkTest (LNum (1)%Z) (LNum (1)%Z)
    [(2, 1); (3, 1); (6, 1)]
    [(0, 1); (1, 1); (2, 1)]
    [(0, 1)]
    [(0, [1; 0])]
    []; mkTest (LNum (2)%Z) (LNum (2)%Z)
    [(2, 0); (3, 0); (6, 1)]
    [(0, 0); (1, 0); (2, 1)]
    [(0, 0)]
    [(0, [0; 1])]
    []].

(** classes.yaml: class declaration assignment name (top-level) *)
Definition fx_classes_1 : fixture := mkFixture
  (at_ 1 77 KModule [mk KModuleItems [(T 1 21 (KVarDecl VConst) [(list_ [(at_ 7 21 KVarDeclarator [(at_ 7 10 (KIdent "foo") []);
  (X 13 21 KClassExpr [none;
  (at_ 13 21 KClass [(list_ []);
  (list_ []);
  none;
  types])])])])]);
  (T 22 40 (KVarDecl VVar) [(list_ [(at_ 26 40 KVarDeclarator [(at_ 26 29 (KIdent "bar") []);
  (X 32 40 KClassExpr [none;
  (at_ 32 40 KClass [(list_ []);
  (list_ []);
  none;
  types])])])])]);
  (T 41 76 KExprStmt [(X 41 75 (KOther 10) [(at_ 41 47 (KIdent "output") []);
  (X 50 75 (KBin (OpOther 0)) [(X 50 64 (KBin (OpOther 0)) [(X 50 58 (KOther 1) [(X 50 53 (KIdent "foo") []);
  (at_ 54 58 (KPropIdent "name") [])]);
  (X 61 64 (KStr " ") [])]);
  (X 67 75 (KOther 1) [(X 67 70 (KIdent "bar") []);
  (at_ 71 75 (KPropIdent "name") [])])])])])]])
  [1; 22; 41; 77]
  []
  false [].
Definition fx_classes_1_tests : list test := [mkTest LUndef (LStr "foo bar")
    [(1, 1); (2, 1); (3, 1)]
    [(0, 1); (1, 1); (2, 1)]
    []
    []
    []].

(** classes.yaml: bug https://github.com/istanbuljs/nyc/issues/685 *)
Definition fx_classes_2 : fixture := mkFixture
  (at_ 1 65 KModule [mk KModuleItems [(T 1 42 KClassDecl [(at_ 7 14 (KIdent "MyClass") []);
  (at_ 1 42 KClass [(list_ []);
  (list_ []);
  (X 23 39 KParen [(X 24 38 (KBin OpOr) [(X 24 30 (KIdent "Object") []);
  (X 32 38 (KIdent "Object") [])])]);
  types])]);
  (T 43 64 KExprStmt [(X 43 64 (KOther 10) [(at_ 43 49 (KIdent "output") []);
  (X 52 64 (KOther 1) [(X 52 59 (KIdent "MyClass") []);
  (at_ 60 64 (KPropIdent "name") [])])])])]])
  [1; 43; 65]
  []
  false [].
Definition fx_classes_2_tests : list test := [mkTest LUndef (LStr "MyClass")
    [(2, 1)]
    [(0, 1)]
    []
    [(0, [1; 0])]
    []].

(** default-args.yaml: ES6 default arguments *)
Definition fx_default_args_1 : fixture := mkFixture
  (at_ 1 119 KModule [mk KModuleItems [(T 1 69 KFnDecl [(at_ 10 13 (KIdent "add") []);
  (at_ 1 69 KFunction [(list_ [(at_ 14 19 (KOther 49) [(at_ 14 19 KAssignPat [(at_ 14 15 (KIdent "a") []);
  (X 18 19 (KOther 1001) [])])]);
  (at_ 21 26 (KOther 49) [(at_ 21 26 KAssignPat [(at_ 21 22 (KIdent "b") []);
  (X 25 26 (KOther 1002) [])])]);
  (at_ 28 33 (KOther 49) [(at_ 28 33 KAssignPat [(at_ 28 29 (KIdent "c") []);
  (X 32 33 (KOther 1003) [])])]);
  (at_ 35 40 (KOther 49) [(at_ 35 40 KAssignPat [(at_ 35 36 (KIdent "d") []);
  (X 39 40 (KOther 1004) [])])])]);
  (list_ []);
  (block 42 69 [(T 46 67 KReturn [(X 53 66 (KBin (OpOther 0)) [(X 53 62 (KBin (OpOther 0)) [(X 53 58 (KBin (OpOther 0)) [(X 53 54 (KIdent "a") []);
  (X 57 58 (KIdent "b") [])]);
  (X 61 62 (KIdent "c") [])]);
  (X 65 66 (KIdent "d") [])])])]);
  types])]);
  (T 70 118 KExprStmt [(X 70 118 (KOther 10) [(at_ 70 76 (KIdent "output") []);
  (X 79 118 (KOther 3) [(X 79 82 (KIdent "add") []);
  (at_ 83 90 (KOther 4) [(X 83 90 (KOther 1) [(X 83 87 (KIdent "args") []);
  (at_ 88 89 (KOther 2) [(X 88 89 (KOther 1000) [])])])]);
  (at_ 92 99 (KOther 4) [(X 92 99 (KOther 1) [(X 92 96 (KIdent "args") []);
  (at_ 97 98 (KOther 2) [(X 97 98 (KOther 1001) [])])])]);
  (at_ 101 108 (KOther 4) [(X 101 108 (KOther 1) [(X 101 105 (KIdent "args") []);
  (at_ 106 107 (KOther 2) [(X 106 107 (KOther 1002) [])])])]);
  (at_ 110 117 (KOther 4) [(X 110 117 (KOther 1) [(X 110 114 (KIdent "args") []);
  (at_ 115 116 (KOther 2) [(X 115 116 (KOther 1003) [])])])])])])])]])
  [1; 44; 68; 70; 119]
  []
  false [].
Definition fx_default_args_1_tests : list test := [mkTest (LArr [(LNum (10)%Z); (LNum (20)%Z); (LNum (30)%Z); (LNum (40)%Z)]) (LNum (100)%Z)
    [(2, 1); (4, 1)]
    [(0, 1); (1, 1)]
    [(0, 1)]
    [(0, [0]); (1, [0]); (2, [0]); (3, [0])]
    []; mkTest (LArr [(LNum (3)%Z); (LNum (4)%Z)]) (LNum (14)%Z)
    [(2, 1); (4, 1)]
    [(0, 1); (1, 1)]
    [(0, 1)]
    [(0, [0]); (1, [0]); (2, [1]); (3, [1])]
    []; mkTest (LArr []) (LNum (10)%Z)
    [(2, 1); (4, 1)]
    [(0, 1); (1, 1)]
    [(0, 1)]
    [(0, [1]); (1, [1]); (2, [1]); (3, [1])]
    []].

(** do-while.yaml: simple do-while *)
Definition fx_do_while_1 : fixture := mkFixture
  (at_ 1 62 KModule [mk KModuleItems [(T 1 22 (KVarDecl VVar) [(list_ [(at_ 5 16 KVarDeclarator [(at_ 5 6 (KIdent "x") []);
  (X 9 16 (KOther 1) [(X 9 13 (KIdent "args") []);
  (at_ 14 15 (KOther 2) [(X 14 15 (KOther 1000) [])])])]);
  (at_ 18 21 KVarDeclarator [(at_ 18 19 (KIdent "i") []);
  (X 20 21 (KOther 1000) [])])])]);
  (T 23 49 KDoWhile [(X 42 47 (KBin (OpOther 4)) [(X 42 43 (KIdent "i") []);
  (X 46 47 (KIdent "x") [])]);
  (at_ 26 34 KStmt [(block 26 34 [(T 28 32 KExprStmt [(X 28 31 (KOther 20) [(X 28 29 (KIdent "i") [])])])])])]);
  (T 50 61 KExprStmt [(X 50 60 (KOther 10) [(at_ 50 56 (KIdent "output") []);
  (X 59 60 (KIdent "i") [])])])]])
  [1; 23; 50; 62]
  []
  false [].
Definition fx_do_while_1_tests : list test := [mkTest (LArr [(LNum (10)%Z)]) (LNum (10)%Z)
    [(1, 1); (2, 10); (3, 1)]
    [(0, 1); (1, 1); (2, 1); (3, 10); (4, 1)]
    []
    []
    []; mkTest (LArr [(LNum (-1)%Z)]) (LNum (1)%Z)
    [(1, 1); (2, 1); (3, 1)]
    [(0, 1); (1, 1); (2, 1); (3, 1); (4, 1)]
    []
    []
    []].

(** do-while.yaml: block do-while on separate line *)
Definition fx_do_while_2 : fixture := mkFixture
  (at_ 1 65 KModule [mk KModuleItems [(T 1 22 (KVarDecl VVar) [(list_ [(at_ 5 16 KVarDeclarator [(at_ 5 6 (KIdent "x") []);
  (X 9 16 (KOther 1) [(X 9 13 (KIdent "args") []);
  (at_ 14 15 (KOther 2) [(X 14 15 (KOther 1000) [])])])]);
  (at_ 18 21 KVarDeclarator [(at_ 18 19 (KIdent "i") []);
  (X 20 21 (KOther 1000) [])])])]);
  (T 23 52 KDoWhile [(X 45 50 (KBin (OpOther 4)) [(X 45 46 (KIdent "i") []);
  (X 49 50 (KIdent "x") [])]);
  (at_ 26 37 KStmt [(block 26 37 [(T 31 35 KExprStmt [(X 31 34 (KOther 20) [(X 31 32 (KIdent "i") [])])])])])]);
  (T 53 64 KExprStmt [(X 53 63 (KOther 10) [(at_ 53 59 (KIdent "output") []);
  (X 62 63 (KIdent "i") [])])])]])
  [1; 23; 28; 36; 53; 65]
  []
  false [].
Definition fx_do_while_2_tests : list test := [mkTest (LArr [(LNum (10)%Z)]) (LNum (10)%Z)
    [(1, 1); (2, 1); (3, 10); (5, 1)]
    [(0, 1); (1, 1); (2, 1); (3, 10); (4, 1)]
    []
    []
    []; mkTest (LArr [(LNum (-1)%Z)]) (LNum (1)%Z)
    [(1, 1); (2, 1); (3, 1); (5, 1)]
    [(0, 1); (1, 1); (2, 1); (3, 1); (4, 1)]
    []
    []
    []].

(** do-while.yaml: ignore inside do-while *)
Definition fx_do_while_3 : fixture := mkFixture
  (at_ 1 81 KModule [mk KModuleItems [(T 1 68 KDoWhile [(X 61 66 (KOther 53) []);
  (at_ 4 53 KStmt [(block 4 53 [(T 39 51 KExprStmt [(X 39 50 (KOther 10) [(at_ 39 45 (KIdent "output") []);
  (X 48 50 (KOther 1020) [])])])])])]);
  (T 69 80 KExprStmt [(X 69 80 (KOther 10) [(at_ 69 75 (KIdent "output") []);
  (X 78 80 (KOther 1010) [])])])]])
  [1; 6; 36; 52; 69; 81]
  [(39, [" istanbul ignore next "])]
  false [].
Definition fx_do_while_3_tests : list test := [mkTest (LArr []) (LNum (10)%Z)
    [(1, 1); (5, 1)]
    [(0, 1); (1, 1)]
    []
    []
    []].

(** es6-modules.yaml: covers export statements *)
Definition fx_es6_modules_1 : fixture := mkFixture
  (at_ 1 39 KModule [mk KModuleItems [(at_ 1 22 KModuleDecl [(at_ 1 22 KExportDecl [(at_ 8 22 (KVarDecl VVar) [(list_ [(at_ 12 16 KVarDeclarator [(at_ 12 13 (KIdent "a") []);
  (X 15 16 (KOther 1002) [])]);
  (at_ 18 21 KVarDeclarator [(at_ 18 19 (KIdent "b") []);
  (X 20 21 (KOther 1003) [])])])])])]);
  (T 23 38 KExprStmt [(X 23 37 (KOther 10) [(at_ 23 29 (KIdent "output") []);
  (X 32 37 (KBin (OpOther 0)) [(X 32 33 (KIdent "a") []);
  (X 36 37 (KIdent "b") [])])])])]])
  [1; 23; 39]
  []
  false [].
Definition fx_es6_modules_1_tests : list test := [].

(** es6-modules.yaml: covers import statements *)
Definition fx_es6_modules_2 : fixture := mkFixture
  (at_ 1 66 KModule [mk KModuleItems [(at_ 1 25 KModuleDecl [(at_ 1 25 (KOther 59) [])]);
  (T 26 65 KExprStmt [(X 26 64 (KOther 10) [(at_ 26 32 (KIdent "output") []);
  (X 35 64 (KOther 3) [(X 35 46 (KOther 1) [(X 35 39 (KIdent "util") []);
  (at_ 40 46 (KPropIdent "format") [])]);
  (at_ 47 54 (KOther 4) [(X 47 54 (KOther 1) [(X 47 51 (KIdent "args") []);
  (at_ 52 53 (KOther 2) [(X 52 53 (KOther 1000) [])])])]);
  (at_ 56 63 (KOther 4) [(X 56 63 (KOther 1) [(X 56 60 (KIdent "args") []);
  (at_ 61 62 (KOther 2) [(X 61 62 (KOther 1001) [])])])])])])])]])
  [1; 26; 66]
  []
  false [].
Definition fx_es6_modules_2_tests : list test := [].

(** expressions.yaml: simple expression *)
Definition fx_expressions_1 : fixture := mkFixture
  (at_ 1 49 KModule [mk KModuleItems [(T 1 36 (KVarDecl VVar) [(list_ [(at_ 5 35 KVarDeclarator [(at_ 5 6 (KIdent "x") []);
  (X 9 35 (KBin OpAnd) [(X 9 20 (KBin (OpOther 5)) [(X 9 16 (KOther 1) [(X 9 13 (KIdent "args") []);
  (at_ 14 15 (KOther 2) [(X 14 15 (KOther 1000) [])])]);
  (X 19 20 (KOther 1000) [])]);
  (X 24 35 (KBin (OpOther 4)) [(X 24 31 (KOther 1) [(X 24 28 (KIdent "args") []);
  (at_ 29 30 (KOther 2) [(X 29 30 (KOther 1000) [])])]);
  (X 34 35 (KOther 1005) [])])])])])]);
  (T 37 48 KExprStmt [(X 37 47 (KOther 10) [(at_ 37 43 (KIdent "output") []);
  (X 46 47 (KIdent "x") [])])])]])
  [1; 37; 49]
  []
  false [].
Definition fx_expressions_1_tests : list test := [mkTest (LArr [(LNum (-1)%Z)]) (LBool false)
    [(1, 1); (2, 1)]
    [(0, 1); (1, 1)]
    []
    [(0, [1; 0])]
    []; mkTest (LArr [(LNum (10)%Z)]) (LBool false)
    [(1, 1); (2, 1)]
    [(0, 1); (1, 1)]
    []
    [(0, [1; 1])]
    []; mkTest (LArr [(LNum (3)%Z)]) (LBool true)
    [(1, 1); (2, 1)]
    [(0, 1); (1, 1)]
    []
    [(0, [1; 1])]
    []].

(** expressions.yaml: complex expression *)
Definition fx_expressions_2 : fixture := mkFixture
  (at_ 1 67 KModule [mk KModuleItems [(T 1 54 (KVarDecl VVar) [(list_ [(at_ 5 53 KVarDeclarator [(at_ 5 6 (KIdent "x") []);
  (X 9 53 (KBin OpAnd) [(X 9 20 (KBin (OpOther 5)) [(X 9 16 (KOther 1) [(X 9 13 (KIdent "args") []);
  (at_ 14 15 (KOther 2) [(X 14 15 (KOther 1000) [])])]);
  (X 19 20 (KOther 1000) [])]);
  (X 24 53 KParen [(X 25 52 (KBin OpOr) [(X 25 36 (KBin (OpOther 4)) [(X 25 32 (KOther 1) [(X 25 29 (KIdent "args") []);
  (at_ 30 31 (KOther 2) [(X 30 31 (KOther 1000) [])])]);
  (X 35 36 (KOther 1005) [])]);
  (X 40 52 (KBin (OpOther 5)) [(X 40 47 (KOther 1) [(X 40 44 (KIdent "args") []);
  (at_ 45 46 (KOther 2) [(X 45 46 (KOther 1000) [])])]);
  (X 50 52 (KOther 1010) [])])])])])])])]);
  (T 55 66 KExprStmt [(X 55 65 (KOther 10) [(at_ 55 61 (KIdent "output") []);
  (X 64 65 (KIdent "x") [])])])]])
  [1; 55; 67]
  []
  false [].
Definition fx_expressions_2_tests : list test := [mkTest (LArr [(LNum (-1)%Z)]) (LBool false)
    [(1, 1); (2, 1)]
    [(0, 1); (1, 1)]
    []
    [(0, [1; 0; 0])]
    []; mkTest (LArr [(LNum (9)%Z)]) (LBool false)
    [(1, 1); (2, 1)]
    [(0, 1); (1, 1)]
    []
    [(0, [1; 1; 1])]
    []; mkTest (LArr [(LNum (3)%Z)]) (LBool true)
    [(1, 1); (2, 1)]
    [(0, 1); (1, 1)]
    []
    [(0, [1; 1; 0])]
    []].

(** expressions.yaml: array expression with empty positions *)
Definition fx_expressions_3 : fixture := mkFixture
  (at_ 1 96 KModule [mk KModuleItems [(T 1 32 (KVarDecl VVar) [(list_ [(at_ 5 31 KVarDeclarator [(at_ 5 6 (KIdent "x") []);
  (X 9 31 (KOther 40) [(at_ 10 17 (KOther 4) [(X 10 17 (KOther 1) [(X 10 14 (KIdent "args") []);
  (at_ 15 16 (KOther 2) [(X 15 16 (KOther 1000) [])])])]);
  none;
  (at_ 21 28 (KOther 4) [(X 21 28 (KOther 1) [(X 21 25 (KIdent "args") []);
  (at_ 26 27 (KOther 2) [(X 26 27 (KOther 1001) [])])])])])])])]);
  (T 33 95 KExprStmt [(X 33 94 (KOther 10) [(at_ 33 39 (KIdent "output") []);
  (X 42 94 (KBin OpAnd) [(X 42 77 (KBin (OpOther 6)) [(X 42 60 (KOther 3) [(X 42 51 (KOther 1) [(X 42 43 (KIdent "x") []);
  (at_ 44 51 (KPropIdent "indexOf") [])]);
  (at_ 52 59 (KOther 4) [(X 52 59 (KOther 1) [(X 52 56 (KIdent "args") []);
  (at_ 57 58 (KOther 2) [(X 57 58 (KOther 1001) [])])])])]);
  (X 65 77 (KBin (OpOther 1)) [(X 65 73 (KOther 1) [(X 65 66 (KIdent "x") []);
  (at_ 67 73 (KPropIdent "length") [])]);
  (X 76 77 (KOther 1001) [])])]);
  (X 81 94 (KBin (OpOther 7)) [(X 81 85 (KOther 1) [(X 81 82 (KIdent "x") []);
  (at_ 83 84 (KOther 2) [(X 83 84 (KOther 1000) [])])]);
  (X 90 94 (KOther 1) [(X 90 91 (KIdent "x") []);
  (at_ 92 93 (KOther 2) [(X 92 93 (KOther 1001) [])])])])])])])]])
  [1; 33; 96]
  []
  false [].
Definition fx_expressions_3_tests : list test := [mkTest (LArr [(LNum (1)%Z); (LNum (5)%Z)]) (LBool true)
    [(1, 1); (2, 1)]
    [(0, 1); (1, 1)]
    []
    [(0, [1; 1])]
    []].

(** expressions.yaml: or with object expression (bug track) *)
Definition fx_expressions_4 : fixture := mkFixture
  (at_ 1 60 KModule [mk KModuleItems [(T 1 43 (KVarDecl VVar) [(list_ [(at_ 5 42 KVarDeclarator [(at_ 5 6 (KIdent "x") []);
  (X 9 42 KCond [(X 9 16 (KOther 1) [(X 9 13 (KIdent "args") []);
  (at_ 14 15 (KOther 2) [(X 14 15 (KOther 1000) [])])]);
  (X 19 29 (KOther 41) [(at_ 21 27 (KOther 42) [(at_ 21 24 (KPropIdent "foo") []);
  (X 26 27 (KOther 1001) [])])]);
  (X 32 42 (KOther 41) [(at_ 34 40 (KOther 42) [(at_ 34 37 (KPropIdent "foo") []);
  (X 39 40 (KOther 1002) [])])])])])])]);
  (T 44 59 KExprStmt [(X 44 58 (KOther 10) [(at_ 44 50 (KIdent "output") []);
  (X 53 58 (KOther 1) [(X 53 54 (KIdent "x") []);
  (at_ 55 58 (KPropIdent "foo") [])])])])]])
  [1; 44; 60]
  []
  false [].
Definition fx_expressions_4_tests : list test := [mkTest (LArr [(LBool false)]) (LNum (2)%Z)
    [(1, 1); (2, 1)]
    [(0, 1); (1, 1)]
    []
    [(0, [0; 1])]
    []].

(** expressions.yaml: or with object expression (part 2) *)
Definition fx_expressions_5 : fixture := mkFixture
  (at_ 1 48 KModule [mk KModuleItems [(T 1 31 (KVarDecl VVar) [(list_ [(at_ 5 30 KVarDeclarator [(at_ 5 6 (KIdent "x") []);
  (X 9 30 (KBin OpOr) [(X 9 16 (KOther 1) [(X 9 13 (KIdent "args") []);
  (at_ 14 15 (KOther 2) [(X 14 15 (KOther 1000) [])])]);
  (X 20 30 (KOther 41) [(at_ 22 28 (KOther 42) [(at_ 22 25 (KPropIdent "foo") []);
  (X 27 28 (KOther 1002) [])])])])])])]);
  (T 32 47 KExprStmt [(X 32 46 (KOther 10) [(at_ 32 38 (KIdent "output") []);
  (X 41 46 (KOther 1) [(X 41 42 (KIdent "x") []);
  (at_ 43 46 (KPropIdent "foo") [])])])])]])
  [1; 32; 48]
  []
  false [].
Definition fx_expressions_5_tests : list test := [mkTest (LArr [(LBool false)]) (LNum (2)%Z)
    [(1, 1); (2, 1)]
    [(0, 1); (1, 1)]
    []
    [(0, [1; 1])]
    []].

(** for-in.yaml: simple for-in *)
Definition fx_for_in_1 : fixture := mkFixture
  (at_ 1 135 KModule [mk KModuleItems [(T 1 39 (KVarDecl VVar) [(list_ [(at_ 5 35 KVarDeclarator [(at_ 5 6 (KIdent "x") []);
  (X 9 35 (KOther 41) [(at_ 11 21 (KOther 42) [(at_ 11 12 (KPropIdent "a") []);
  (X 14 21 (KOther 1) [(X 14 18 (KIdent "args") []);
  (at_ 19 20 (KOther 2) [(X 19 20 (KOther 1000) [])])])]);
  (at_ 23 33 (KOther 42) [(at_ 23 24 (KPropIdent "b") []);
  (X 26 33 (KOther 1) [(X 26 30 (KIdent "args") []);
  (at_ 31 32 (KOther 2) [(X 31 32 (KOther 1001) [])])])])])]);
  (at_ 37 38 KVarDeclarator [(at_ 37 38 (KIdent "k") []);
  none])])]);
  (T 40 51 KExprStmt [(X 40 50 (KOther 10) [(at_ 40 46 (KIdent "output") []);
  (X 49 50 (KOther 1000) [])])]);
  (T 52 134 KForIn [(at_ 57 58 (KIdent "k") []);
  (X 62 63 (KIdent "x") []);
  (at_ 65 134 KStmt [(block 65 134 [(T 70 132 KIf [(X 74 101 (KBin OpAnd) [(X 74 93 (KOther 3) [(X 74 90 (KOther 1) [(X 74 75 (KIdent "x") []);
  (at_ 76 90 (KPropIdent "hasOwnProperty") [])]);
  (at_ 91 92 (KOther 4) [(X 91 92 (KIdent "k") [])])]);
  (X 97 101 (KOther 1) [(X 97 98 (KIdent "x") []);
  (at_ 99 100 (KOther 2) [(X 99 100 (KIdent "k") [])])])]);
  (at_ 103 132 KStmt [(block 103 132 [(T 112 127 KExprStmt [(X 112 126 (KOther 11) [(at_ 112 118 (KIdent "output") []);
  (X 122 126 (KOther 1) [(X 122 123 (KIdent "x") []);
  (at_ 124 125 (KOther 2) [(X 124 125 (KIdent "k") [])])])])])])]);
  none])])])])]])
  [1; 40; 52; 67; 105; 128; 133; 135]
  []
  false [].
Definition fx_for_in_1_tests : list test := [mkTest (LArr [(LNum (10)%Z); (LNum (0)%Z)]) (LNum (10)%Z)
    [(1, 1); (2, 1); (3, 1); (4, 2); (5, 1)]
    [(0, 1); (1, 1); (2, 1); (3, 2); (4, 1)]
    []
    [(0, [1; 1]); (1, [2; 2])]
    []].

(** for-in.yaml: for-in with loop initializer *)
Definition fx_for_in_2 : fixture := mkFixture
  (at_ 1 136 KModule [mk KModuleItems [(T 1 36 (KVarDecl VVar) [(list_ [(at_ 5 35 KVarDeclarator [(at_ 5 6 (KIdent "x") []);
  (X 9 35 (KOther 41) [(at_ 11 21 (KOther 42) [(at_ 11 12 (KPropIdent "a") []);
  (X 14 21 (KOther 1) [(X 14 18 (KIdent "args") []);
  (at_ 19 20 (KOther 2) [(X 19 20 (KOther 1000) [])])])]);
  (at_ 23 33 (KOther 42) [(at_ 23 24 (KPropIdent "b") []);
  (X 26 33 (KOther 1) [(X 26 30 (KIdent "args") []);
  (at_ 31 32 (KOther 2) [(X 31 32 (KOther 1001) [])])])])])])])]);
  (T 37 48 KExprStmt [(X 37 47 (KOther 10) [(at_ 37 43 (KIdent "output") []);
  (X 46 47 (KOther 1000) [])])]);
  (T 49 135 KForIn [(at_ 54 59 (KVarDecl VVar) [(list_ [(at_ 58 59 KVarDeclarator [(at_ 58 59 (KIdent "k") []);
  none])])]);
  (X 63 64 (KIdent "x") []);
  (at_ 66 135 KStmt [(block 66 135 [(T 71 133 KIf [(X 75 102 (KBin OpAnd) [(X 75 94 (KOther 3) [(X 75 91 (KOther 1) [(X 75 76 (KIdent "x") []);
  (at_ 77 91 (KPropIdent "hasOwnProperty") [])]);
  (at_ 92 93 (KOther 4) [(X 92 93 (KIdent "k") [])])]);
  (X 98 102 (KOther 1) [(X 98 99 (KIdent "x") []);
  (at_ 100 101 (KOther 2) [(X 100 101 (KIdent "k") [])])])]);
  (at_ 104 133 KStmt [(block 104 133 [(T 113 128 KExprStmt [(X 113 127 (KOther 11) [(at_ 113 119 (KIdent "output") []);
  (X 123 127 (KOther 1) [(X 123 124 (KIdent "x") []);
  (at_ 125 126 (KOther 2) [(X 125 126 (KIdent "k") [])])])])])])]);
  none])])])])]])
  [1; 37; 49; 68; 106; 129; 134; 136]
  []
  false [].
Definition fx_for_in_2_tests : list test := [mkTest (LArr [(LNum (10)%Z); (LNum (0)%Z)]) (LNum (10)%Z)
    [(1, 1); (2, 1); (3, 1); (4, 2); (5, 1)]
    [(0, 1); (1, 1); (2, 1); (3, 2); (4, 1)]
    []
    [(0, [1; 1]); (1, [2; 2])]
    []].

(** for-of.yaml: simple for-of *)
Definition fx_for_of_1 : fixture := mkFixture
  (at_ 1 92 KModule [mk KModuleItems [(T 1 36 KFnDecl [(at_ 11 12 (KIdent "x") []);
  (at_ 1 36 KFunction [(list_ []);
  (list_ []);
  (block 15 36 [(T 17 25 KExprStmt [(X 17 24 (KOther 47) [(X 23 24 (KOther 1001) [])])]);
  (T 26 34 KExprStmt [(X 26 33 (KOther 47) [(X 32 33 (KOther 1002) [])])])]);
  types])]);
  (T 36 37 (KOther 57) []);
  (T 38 44 (KVarDecl VVar) [(list_ [(at_ 42 43 KVarDeclarator [(at_ 42 43 (KIdent "k") []);
  none])])]);
  (T 45 56 KExprStmt [(X 45 55 (KOther 10) [(at_ 45 51 (KIdent "output") []);
  (X 54 55 (KOther 1000) [])])]);
  (T 57 91 KForOf [(at_ 62 63 (KIdent "k") []);
  (X 67 70 (KOther 3) [(X 67 68 (KIdent "x") [])]);
  (at_ 72 91 KStmt [(block 72 91 [(T 77 89 KExprStmt [(X 77 88 (KOther 11) [(at_ 77 83 (KIdent "output") []);
  (X 87 88 (KIdent "k") [])])])])])])]])
  [1; 38; 45; 57; 74; 90; 92]
  []
  false [].
Definition fx_for_of_1_tests : list test := [mkTest (LArr []) (LNum (3)%Z)
    [(1, 1); (3, 1); (4, 1); (5, 2)]
    [(0, 1); (1, 1); (2, 1); (3, 1); (4, 2)]
    [(0, 1)]
    []
    []].

(** for-of.yaml: for-of with loop initializer *)
Definition fx_for_of_2 : fixture := mkFixture
  (at_ 1 89 KModule [mk KModuleItems [(T 1 36 KFnDecl [(at_ 11 12 (KIdent "x") []);
  (at_ 1 36 KFunction [(list_ []);
  (list_ []);
  (block 15 36 [(T 17 25 KExprStmt [(X 17 24 (KOther 47) [(X 23 24 (KOther 1001) [])])]);
  (T 26 34 KExprStmt [(X 26 33 (KOther 47) [(X 32 33 (KOther 1002) [])])])]);
  types])]);
  (T 36 37 (KOther 57) []);
  (T 38 49 KExprStmt [(X 38 48 (KOther 10) [(at_ 38 44 (KIdent "output") []);
  (X 47 48 (KOther 1000) [])])]);
  (T 50 88 KForOf [(at_ 55 60 (KVarDecl VVar) [(list_ [(at_ 59 60 KVarDeclarator [(at_ 59 60 (KIdent "k") []);
  none])])]);
  (X 64 67 (KOther 3) [(X 64 65 (KIdent "x") [])]);
  (at_ 69 88 KStmt [(block 69 88 [(T 74 86 KExprStmt [(X 74 85 (KOther 11) [(at_ 74 80 (KIdent "output") []);
  (X 84 85 (KIdent "k") [])])])])])])]])
  [1; 38; 50; 71; 87; 89]
  []
  false [].
Definition fx_for_of_2_tests : list test := [mkTest (LArr []) (LNum (3)%Z)
    [(1, 1); (2, 1); (3, 1); (4, 2)]
    [(0, 1); (1, 1); (2, 1); (3, 1); (4, 2)]
    [(0, 1)]
    []
    []].

(** for.yaml: simple for *)
Definition fx_for_1 : fixture := mkFixture
  (at_ 1 72 KModule [mk KModuleItems [(T 1 29 (KVarDecl VVar) [(list_ [(at_ 5 16 KVarDeclarator [(at_ 5 6 (KIdent "x") []);
  (X 9 16 (KOther 1) [(X 9 13 (KIdent "args") []);
  (at_ 14 15 (KOther 2) [(X 14 15 (KOther 1000) [])])])]);
  (at_ 18 19 KVarDeclarator [(at_ 18 19 (KIdent "i") []);
  none]);
  (at_ 21 28 KVarDeclarator [(at_ 21 22 (KIdent "j") []);
  (X 25 28 (KOther 30) [(X 26 28 (KOther 1010) [])])])])]);
  (T 30 59 KFor [(X 35 39 (KOther 10) [(at_ 35 36 (KIdent "i") []);
  (X 38 39 (KOther 1000) [])]);
  (X 41 46 (KBin (OpOther 4)) [(X 41 42 (KIdent "i") []);
  (X 45 46 (KIdent "x") [])]);
  (X 48 51 (KOther 20) [(X 48 49 (KIdent "i") [])]);
  (T 53 59 KExprStmt [(X 53 58 (KOther 10) [(at_ 53 54 (KIdent "j") []);
  (X 57 58 (KIdent "i") [])])])]);
  (T 60 71 KExprStmt [(X 60 70 (KOther 10) [(at_ 60 66 (KIdent "output") []);
  (X 69 70 (KIdent "j") [])])])]])
  [1; 30; 60; 72]
  []
  false [].
Definition fx_for_1_tests : list test := [mkTest (LArr [(LNum (10)%Z)]) (LNum (9)%Z)
    [(1, 1); (2, 10); (3, 1)]
    [(0, 1); (1, 1); (2, 1); (3, 10); (4, 1)]
    []
    []
    []].

(** for.yaml: for with loop initializer *)
Definition fx_for_2 : fixture := mkFixture
  (at_ 1 73 KModule [mk KModuleItems [(T 1 26 (KVarDecl VVar) [(list_ [(at_ 5 16 KVarDeclarator [(at_ 5 6 (KIdent "x") []);
  (X 9 16 (KOther 1) [(X 9 13 (KIdent "args") []);
  (at_ 14 15 (KOther 2) [(X 14 15 (KOther 1000) [])])])]);
  (at_ 18 25 KVarDeclarator [(at_ 18 19 (KIdent "j") []);
  (X 22 25 (KOther 30) [(X 23 25 (KOther 1010) [])])])])]);
  (T 27 60 KFor [(at_ 32 40 (KVarDecl VVar) [(list_ [(at_ 36 40 KVarDeclarator [(at_ 36 37 (KIdent "i") []);
  (X 39 40 (KOther 1000) [])])])]);
  (X 42 47 (KBin (OpOther 4)) [(X 42 43 (KIdent "i") []);
  (X 46 47 (KIdent "x") [])]);
  (X 49 52 (KOther 20) [(X 49 50 (KIdent "i") [])]);
  (T 54 60 KExprStmt [(X 54 59 (KOther 10) [(at_ 54 55 (KIdent "j") []);
  (X 58 59 (KIdent "i") [])])])]);
  (T 61 72 KExprStmt [(X 61 71 (KOther 10) [(at_ 61 67 (KIdent "output") []);
  (X 70 71 (KIdent "j") [])])])]])
  [1; 27; 61; 73]
  []
  false [].
Definition fx_for_2_tests : list test := [mkTest (LArr [(LNum (10)%Z)]) (LNum (9)%Z)
    [(1, 1); (2, 10); (3, 1)]
    [(0, 1); (1, 1); (2, 1); (3, 1); (4, 10); (5, 1)]
    []
    []
    []].

(** for.yaml: simple for, no initializer *)
Definition fx_for_3 : fixture := mkFixture
  (at_ 1 70 KModule [mk KModuleItems [(T 1 31 (KVarDecl VVar) [(list_ [(at_ 5 16 KVarDeclarator [(at_ 5 6 (KIdent "x") []);
  (X 9 16 (KOther 1) [(X 9 13 (KIdent "args") []);
  (at_ 14 15 (KOther 2) [(X 14 15 (KOther 1000) [])])])]);
  (at_ 18 25 KVarDeclarator [(at_ 18 19 (KIdent "j") []);
  (X 22 25 (KOther 30) [(X 23 25 (KOther 1010) [])])]);
  (at_ 27 30 KVarDeclarator [(at_ 27 28 (KIdent "i") []);
  (X 29 30 (KOther 1000) [])])])]);
  (T 32 57 KFor [none;
  (X 39 44 (KBin (OpOther 4)) [(X 39 40 (KIdent "i") []);
  (X 43 44 (KIdent "x") [])]);
  (X 46 49 (KOther 20) [(X 46 47 (KIdent "i") [])]);
  (T 51 57 KExprStmt [(X 51 56 (KOther 10) [(at_ 51 52 (KIdent "j") []);
  (X 55 56 (KIdent "i") [])])])]);
  (T 58 69 KExprStmt [(X 58 68 (KOther 10) [(at_ 58 64 (KIdent "output") []);
  (X 67 68 (KIdent "j") [])])])]])
  [1; 32; 58; 70]
  []
  false [].
Definition fx_for_3_tests : list test := [mkTest (LArr [(LNum (10)%Z)]) (LNum (9)%Z)
    [(1, 1); (2, 10); (3, 1)]
    [(0, 1); (1, 1); (2, 1); (3, 1); (4, 10); (5, 1)]
    []
    []
    []].

(** for.yaml: simple for, statement on different line *)
Definition fx_for_4 : fixture := mkFixture
  (at_ 1 75 KModule [mk KModuleItems [(T 1 29 (KVarDecl VVar) [(list_ [(at_ 5 16 KVarDeclarator [(at_ 5 6 (KIdent "x") []);
  (X 9 16 (KOther 1) [(X 9 13 (KIdent "args") []);
  (at_ 14 15 (KOther 2) [(X 14 15 (KOther 1000) [])])])]);
  (at_ 18 19 KVarDeclarator [(at_ 18 19 (KIdent "i") []);
  none]);
  (at_ 21 28 KVarDeclarator [(at_ 21 22 (KIdent "j") []);
  (X 25 28 (KOther 30) [(X 26 28 (KOther 1010) [])])])])]);
  (T 30 62 KFor [(X 35 39 (KOther 10) [(at_ 35 36 (KIdent "i") []);
  (X 38 39 (KOther 1000) [])]);
  (X 41 46 (KBin (OpOther 4)) [(X 41 42 (KIdent "i") []);
  (X 45 46 (KIdent "x") [])]);
  (X 48 51 (KOther 20) [(X 48 49 (KIdent "i") [])]);
  (T 56 62 KExprStmt [(X 56 61 (KOther 10) [(at_ 56 57 (KIdent "j") []);
  (X 60 61 (KIdent "i") [])])])]);
  (T 63 74 KExprStmt [(X 63 73 (KOther 10) [(at_ 63 69 (KIdent "output") []);
  (X 72 73 (KIdent "j") [])])])]])
  [1; 30; 53; 63; 75]
  []
  false [].
Definition fx_for_4_tests : list test := [mkTest (LArr [(LNum (10)%Z)]) (LNum (9)%Z)
    [(1, 1); (2, 1); (3, 10); (4, 1)]
    [(0, 1); (1, 1); (2, 1); (3, 10); (4, 1)]
    []
    []
    []; mkTest (LArr [(LNum (-1)%Z)]) (LNum (-10)%Z)
    [(1, 1); (2, 1); (3, 0); (4, 1)]
    [(0, 1); (1, 1); (2, 1); (3, 0); (4, 1)]
    []
    []
    []].

(** for.yaml: for with block body *)
Definition fx_for_5 : fixture := mkFixture
  (at_ 1 76 KModule [mk KModuleItems [(T 1 29 (KVarDecl VVar) [(list_ [(at_ 5 16 KVarDeclarator [(at_ 5 6 (KIdent "x") []);
  (X 9 16 (KOther 1) [(X 9 13 (KIdent "args") []);
  (at_ 14 15 (KOther 2) [(X 14 15 (KOther 1000) [])])])]);
  (at_ 18 19 KVarDeclarator [(at_ 18 19 (KIdent "i") []);
  none]);
  (at_ 21 28 KVarDeclarator [(at_ 21 22 (KIdent "j") []);
  (X 25 28 (KOther 30) [(X 26 28 (KOther 1010) [])])])])]);
  (T 30 63 KFor [(X 35 39 (KOther 10) [(at_ 35 36 (KIdent "i") []);
  (X 38 39 (KOther 1000) [])]);
  (X 41 46 (KBin (OpOther 4)) [(X 41 42 (KIdent "i") []);
  (X 45 46 (KIdent "x") [])]);
  (X 48 51 (KOther 20) [(X 48 49 (KIdent "i") [])]);
  (at_ 53 63 KStmt [(block 53 63 [(T 55 61 KExprStmt [(X 55 60 (KOther 10) [(at_ 55 56 (KIdent "j") []);
  (X 59 60 (KIdent "i") [])])])])])]);
  (T 64 75 KExprStmt [(X 64 74 (KOther 10) [(at_ 64 70 (KIdent "output") []);
  (X 73 74 (KIdent "j") [])])])]])
  [1; 30; 64; 76]
  []
  false [].
Definition fx_for_5_tests : list test := [mkTest (LArr [(LNum (10)%Z)]) (LNum (9)%Z)
    [(1, 1); (2, 10); (3, 1)]
    [(0, 1); (1, 1); (2, 1); (3, 10); (4, 1)]
    []
    []
    []; mkTest (LArr [(LNum (-1)%Z)]) (LNum (-10)%Z)
    [(1, 1); (2, 1); (3, 1)]
    [(0, 1); (1, 1); (2, 1); (3, 0); (4, 1)]
    []
    []
    []].

(** for.yaml: labeled for *)
Definition fx_for_6 : fixture := mkFixture
  (at_ 1 82 KModule [mk KModuleItems [(T 1 29 (KVarDecl VVar) [(list_ [(at_ 5 16 KVarDeclarator [(at_ 5 6 (KIdent "x") []);
  (X 9 16 (KOther 1) [(X 9 13 (KIdent "args") []);
  (at_ 14 15 (KOther 2) [(X 14 15 (KOther 1000) [])])])]);
  (at_ 18 19 KVarDeclarator [(at_ 18 19 (KIdent "i") []);
  none]);
  (at_ 21 28 KVarDeclarator [(at_ 21 22 (KIdent "j") []);
  (X 25 28 (KOther 30) [(X 26 28 (KOther 1010) [])])])])]);
  (T 30 69 KLabeled [(at_ 30 35 (KIdent "outer") []);
  (T 36 69 KFor [(X 41 45 (KOther 10) [(at_ 41 42 (KIdent "i") []);
  (X 44 45 (KOther 1000) [])]);
  (X 47 52 (KBin (OpOther 4)) [(X 47 48 (KIdent "i") []);
  (X 51 52 (KIdent "x") [])]);
  (X 54 57 (KOther 20) [(X 54 55 (KIdent "i") [])]);
  (at_ 59 69 KStmt [(block 59 69 [(T 61 67 KExprStmt [(X 61 66 (KOther 10) [(at_ 61 62 (KIdent "j") []);
  (X 65 66 (KIdent "i") [])])])])])])]);
  (T 70 81 KExprStmt [(X 70 80 (KOther 10) [(at_ 70 76 (KIdent "output") []);
  (X 79 80 (KIdent "j") [])])])]])
  [1; 30; 70; 82]
  []
  false [].
Definition fx_for_6_tests : list test := [mkTest (LArr [(LNum (10)%Z)]) (LNum (9)%Z)
    [(1, 1); (2, 10); (3, 1)]
    [(0, 1); (1, 1); (2, 1); (3, 1); (4, 10); (5, 1)]
    []
    []
    []].

(** for.yaml: nested labeled for *)
Definition fx_for_7 : fixture := mkFixture
  (at_ 1 154 KModule [mk KModuleItems [(T 1 30 (KVarDecl VVar) [(list_ [(at_ 5 16 KVarDeclarator [(at_ 5 6 (KIdent "x") []);
  (X 9 16 (KOther 1) [(X 9 13 (KIdent "args") []);
  (at_ 14 15 (KOther 2) [(X 14 15 (KOther 1000) [])])])]);
  (at_ 18 19 KVarDeclarator [(at_ 18 19 (KIdent "i") []);
  none]);
  (at_ 21 22 KVarDeclarator [(at_ 21 22 (KIdent "j") []);
  none]);
  (at_ 24 29 KVarDeclarator [(at_ 24 25 (KIdent "k") []);
  (X 28 29 (KOther 1000) [])])])]);
  (T 31 141 KLabeled [(at_ 31 36 (KIdent "outer") []);
  (T 37 141 KFor [(X 42 47 (KOther 10) [(at_ 42 43 (KIdent "i") []);
  (X 46 47 (KOther 1000) [])]);
  (X 49 54 (KBin (OpOther 4)) [(X 49 50 (KIdent "i") []);
  (X 53 54 (KIdent "x") [])]);
  (X 56 59 (KOther 20) [(X 56 57 (KIdent "i") [])]);
  (T 64 141 KFor [(X 69 72 (KOther 10) [(at_ 69 70 (KIdent "j") []);
  (X 71 72 (KOther 1000) [])]);
  (X 74 79 (KBin (OpOther 4)) [(X 74 75 (KIdent "j") []);
  (X 78 79 (KIdent "i") [])]);
  (X 82 85 (KOther 20) [(X 82 83 (KIdent "j") [])]);
  (at_ 87 141 KStmt [(block 87 141 [(T 96 124 KIf [(X 100 107 (KBin (OpOther 6)) [(X 100 101 (KIdent "j") []);
  (X 106 107 (KOther 1002) [])]);
  (T 109 124 KContinue [(at_ 118 123 (KIdent "outer") [])]);
  none]);
  (T 132 136 KExprStmt [(X 132 135 (KOther 20) [(X 132 133 (KIdent "k") [])])])])])])])]);
  (T 142 153 KExprStmt [(X 142 152 (KOther 10) [(at_ 142 148 (KIdent "output") []);
  (X 151 152 (KIdent "k") [])])])]])
  [1; 31; 61; 89; 125; 137; 142; 154]
  []
  false [].
Definition fx_for_7_tests : list test := [mkTest (LArr [(LNum (10)%Z)]) (LNum (17)%Z)
    [(1, 1); (2, 1); (3, 10); (4, 24); (5, 17); (7, 1)]
    [(0, 1); (1, 1); (2, 1); (3, 1); (4, 10); (5, 24); (6, 7); (7, 17); (8, 1)]
    []
    [(0, [7; 17])]
    []].

(** for.yaml: nested labeled for (label on different line) *)
Definition fx_for_8 : fixture := mkFixture
  (at_ 1 155 KModule [mk KModuleItems [(T 1 30 (KVarDecl VVar) [(list_ [(at_ 5 16 KVarDeclarator [(at_ 5 6 (KIdent "x") []);
  (X 9 16 (KOther 1) [(X 9 13 (KIdent "args") []);
  (at_ 14 15 (KOther 2) [(X 14 15 (KOther 1000) [])])])]);
  (at_ 18 19 KVarDeclarator [(at_ 18 19 (KIdent "i") []);
  none]);
  (at_ 21 22 KVarDeclarator [(at_ 21 22 (KIdent "j") []);
  none]);
  (at_ 24 29 KVarDeclarator [(at_ 24 25 (KIdent "k") []);
  (X 28 29 (KOther 1000) [])])])]);
  (T 31 142 KLabeled [(at_ 31 36 (KIdent "outer") []);
  (T 38 142 KFor [(X 43 48 (KOther 10) [(at_ 43 44 (KIdent "i") []);
  (X 47 48 (KOther 1000) [])]);
  (X 50 55 (KBin (OpOther 4)) [(X 50 51 (KIdent "i") []);
  (X 54 55 (KIdent "x") [])]);
  (X 57 60 (KOther 20) [(X 57 58 (KIdent "i") [])]);
  (T 65 142 KFor [(X 70 73 (KOther 10) [(at_ 70 71 (KIdent "j") []);
  (X 72 73 (KOther 1000) [])]);
  (X 75 80 (KBin (OpOther 4)) [(X 75 76 (KIdent "j") []);
  (X 79 80 (KIdent "i") [])]);
  (X 83 86 (KOther 20) [(X 83 84 (KIdent "j") [])]);
  (at_ 88 142 KStmt [(block 88 142 [(T 97 125 KIf [(X 101 108 (KBin (OpOther 6)) [(X 101 102 (KIdent "j") []);
  (X 107 108 (KOther 1002) [])]);
  (T 110 125 KContinue [(at_ 119 124 (KIdent "outer") [])]);
  none]);
  (T 133 137 KExprStmt [(X 133 136 (KOther 20) [(X 133 134 (KIdent "k") [])])])])])])])]);
  (T 143 154 KExprStmt [(X 143 153 (KOther 10) [(at_ 143 149 (KIdent "output") []);
  (X 152 153 (KIdent "k") [])])])]])
  [1; 31; 38; 62; 90; 126; 138; 143; 155]
  []
  false [].
Definition fx_for_8_tests : list test := [mkTest (LArr [(LNum (10)%Z)]) (LNum (17)%Z)
    [(1, 1); (2, 1); (3, 1); (4, 10); (5, 24); (6, 17); (8, 1)]
    [(0, 1); (1, 1); (2, 1); (3, 1); (4, 10); (5, 24); (6, 7); (7, 17); (8, 1)]
    []
    [(0, [7; 17])]
    []].

(** for.yaml: function in initializer *)
Definition fx_for_9 : fixture := mkFixture
  (at_ 1 82 KModule [mk KModuleItems [(T 1 81 KFor [(at_ 6 49 (KVarDecl VVar) [(list_ [(at_ 10 39 KVarDeclarator [(at_ 10 11 (KIdent "x") []);
  (X 14 39 KFnExpr [none;
  (at_ 14 39 KFunction [(list_ []);
  (list_ []);
  (block 24 39 [(T 26 37 KReturn [(X 33 36 (KOther 1100) [])])]);
  types])])]);
  (at_ 41 49 KVarDeclarator [(at_ 41 42 (KIdent "y") []);
  (X 45 49 (KOther 52) [])])])]);
  (X 51 52 (KIdent "y") []);
  (X 54 63 (KOther 10) [(at_ 54 55 (KIdent "y") []);
  (X 58 63 (KOther 53) [])]);
  (at_ 64 81 KStmt [(block 64 81 [(T 66 79 KExprStmt [(X 66 78 (KOther 10) [(at_ 66 72 (KIdent "output") []);
  (X 75 78 (KOther 3) [(X 75 76 (KIdent "x") [])])])])])])])]])
  [1; 82]
  []
  false [].
Definition fx_for_9_tests : list test := [mkTest LUndef (LNum (100)%Z)
    [(1, 1)]
    [(0, 1); (1, 1); (2, 1); (3, 1); (4, 1)]
    [(0, 1)]
    []
    []].

(** functions.yaml: simple function *)
Definition fx_functions_1 : fixture := mkFixture
  (at_ 1 80 KModule [mk KModuleItems [(T 1 17 (KVarDecl VVar) [(list_ [(at_ 5 16 KVarDeclarator [(at_ 5 6 (KIdent "x") []);
  (X 9 16 (KOther 1) [(X 9 13 (KIdent "args") []);
  (at_ 14 15 (KOther 2) [(X 14 15 (KOther 1000) [])])])])])]);
  (T 18 50 KFnDecl [(at_ 27 30 (KIdent "foo") []);
  (at_ 18 50 KFunction [(list_ []);
  (list_ []);
  (block 33 50 [(T 38 48 KReturn [(X 45 47 (KOther 1042) [])])]);
  types])]);
  (T 51 79 KExprStmt [(X 51 78 (KOther 10) [(at_ 51 57 (KIdent "output") []);
  (X 60 78 KCond [(X 60 65 (KBin (OpOther 4)) [(X 60 61 (KIdent "x") []);
  (X 64 65 (KOther 1005) [])]);
  (X 68 73 (KOther 3) [(X 68 71 (KIdent "foo") [])]);
  (X 76 78 (KOther 1015) [])])])])]])
  [1; 18; 35; 49; 51; 80]
  []
  false [].
Definition fx_functions_1_tests : list test := [mkTest (LArr [(LNum (2)%Z)]) (LNum (42)%Z)
    [(1, 1); (3, 1); (5, 1)]
    [(0, 1); (1, 1); (2, 1)]
    [(0, 1)]
    [(0, [1; 0])]
    []; mkTest (LArr [(LNum (10)%Z)]) (LNum (15)%Z)
    [(1, 1); (3, 0); (5, 1)]
    [(0, 1); (1, 0); (2, 1)]
    [(0, 0)]
    [(0, [0; 1])]
    []].

(** functions.yaml: anonymous function *)
Definition fx_functions_2 : fixture := mkFixture
  (at_ 1 71 KModule [mk KModuleItems [(T 1 17 (KVarDecl VVar) [(list_ [(at_ 5 16 KVarDeclarator [(at_ 5 6 (KIdent "x") []);
  (X 9 16 (KOther 1) [(X 9 13 (KIdent "args") []);
  (at_ 14 15 (KOther 2) [(X 14 15 (KOther 1000) [])])])])])]);
  (T 18 70 KExprStmt [(X 18 69 (KOther 10) [(at_ 18 24 (KIdent "output") []);
  (X 27 69 KCond [(X 27 32 (KBin (OpOther 4)) [(X 27 28 (KIdent "x") []);
  (X 31 32 (KOther 1005) [])]);
  (X 35 64 KParen [(X 36 63 (KOther 3) [(X 36 61 KFnExpr [none;
  (at_ 36 61 KFunction [(list_ []);
  (list_ []);
  (block 47 61 [(T 49 59 KReturn [(X 56 58 (KOther 1042) [])])]);
  types])])])]);
  (X 67 69 (KOther 1015) [])])])])]])
  [1; 18; 71]
  []
  false [].
Definition fx_functions_2_tests : list test := [mkTest (LArr [(LNum (2)%Z)]) (LNum (42)%Z)
    [(1, 1); (2, 1)]
    [(0, 1); (1, 1); (2, 1)]
    [(0, 1)]
    [(0, [1; 0])]
    []; mkTest (LArr [(LNum (10)%Z)]) (LNum (15)%Z)
    [(1, 1); (2, 1)]
    [(0, 1); (1, 1); (2, 0)]
    [(0, 0)]
    [(0, [0; 1])]
    []].

(** functions.yaml: anonymous function newline *)
Definition fx_functions_3 : fixture := mkFixture
  (at_ 1 92 KModule [mk KModuleItems [(T 1 17 (KVarDecl VVar) [(list_ [(at_ 5 16 KVarDeclarator [(at_ 5 6 (KIdent "x") []);
  (X 9 16 (KOther 1) [(X 9 13 (KIdent "args") []);
  (at_ 14 15 (KOther 2) [(X 14 15 (KOther 1000) [])])])])])]);
  (T 18 91 KExprStmt [(X 18 90 (KOther 10) [(at_ 18 24 (KIdent "output") []);
  (X 27 90 KCond [(X 27 32 (KBin (OpOther 4)) [(X 27 28 (KIdent "x") []);
  (X 31 32 (KOther 1005) [])]);
  (X 38 84 KParen [(X 39 83 (KOther 3) [(X 39 81 KFnExpr [(at_ 48 61 (KIdent "meaningOfLife") []);
  (at_ 39 81 KFunction [(list_ []);
  (list_ []);
  (block 64 81 [(T 69 79 KReturn [(X 76 78 (KOther 1042) [])])]);
  types])])])]);
  (X 88 90 (KOther 1015) [])])])])]])
  [1; 18; 35; 66; 80; 85; 92]
  []
  false [].
Definition fx_functions_3_tests : list test := [mkTest (LArr [(LNum (2)%Z)]) (LNum (42)%Z)
    [(1, 1); (2, 1); (4, 1)]
    [(0, 1); (1, 1); (2, 1)]
    [(0, 1)]
    [(0, [1; 0])]
    []; mkTest (LArr [(LNum (10)%Z)]) (LNum (15)%Z)
    [(1, 1); (2, 1); (4, 0)]
    [(0, 1); (1, 1); (2, 0)]
    [(0, 0)]
    [(0, [0; 1])]
    []].

(** functions.yaml: function decl in unreachable place *)
Definition fx_functions_4 : fixture := mkFixture
  (at_ 1 115 KModule [mk KModuleItems [(T 1 74 KFnDecl [(at_ 10 13 (KIdent "foo") []);
  (at_ 1 74 KFunction [(list_ [(at_ 14 15 (KOther 49) [(at_ 14 15 (KIdent "x") [])])]);
  (list_ []);
  (block 17 74 [(T 22 36 KReturn [(X 29 35 (KOther 3) [(X 29 32 (KIdent "bar") []);
  (at_ 33 34 (KOther 4) [(X 33 34 (KIdent "x") [])])])]);
  (T 40 72 KFnDecl [(at_ 49 52 (KIdent "bar") []);
  (at_ 40 72 KFunction [(list_ [(at_ 53 54 (KOther 49) [(at_ 53 54 (KIdent "y") [])])]);
  (list_ []);
  (block 56 72 [(T 58 70 KReturn [(X 65 70 (KBin (OpOther 2)) [(X 65 66 (KIdent "y") []);
  (X 69 70 (KOther 1002) [])])])]);
  types])])]);
  types])]);
  (T 75 114 KExprStmt [(X 75 113 (KOther 10) [(at_ 75 81 (KIdent "output") []);
  (X 84 113 KCond [(X 84 95 (KBin (OpOther 4)) [(X 84 91 (KOther 1) [(X 84 88 (KIdent "args") []);
  (at_ 89 90 (KOther 2) [(X 89 90 (KOther 1000) [])])]);
  (X 94 95 (KOther 1002) [])]);
  (X 98 99 (KOther 1002) []);
  (X 101 113 (KOther 3) [(X 101 104 (KIdent "foo") []);
  (at_ 105 112 (KOther 4) [(X 105 112 (KOther 1) [(X 105 109 (KIdent "args") []);
  (at_ 110 111 (KOther 2) [(X 110 111 (KOther 1000) [])])])])])])])])]])
  [1; 19; 37; 73; 75; 115]
  []
  false [].
Definition fx_functions_4_tests : list test := [mkTest (LArr [(LNum (1)%Z)]) (LNum (2)%Z)
    [(2, 0); (3, 0); (5, 1)]
    [(0, 0); (1, 0); (2, 1)]
    [(0, 0); (1, 0)]
    [(0, [1; 0])]
    []; mkTest (LArr [(LNum (10)%Z)]) (LNum (20)%Z)
    [(2, 1); (3, 1); (5, 1)]
    [(0, 1); (1, 1); (2, 1)]
    [(0, 1); (1, 1)]
    [(0, [0; 1])]
    []].

(** functions.yaml: function declaration assignment name (top-level) *)
Definition fx_functions_5 : fixture := mkFixture
  (at_ 1 87 KModule [mk KModuleItems [(T 1 26 (KVarDecl VConst) [(list_ [(at_ 7 26 KVarDeclarator [(at_ 7 10 (KIdent "foo") []);
  (X 13 26 KFnExpr [none;
  (at_ 13 26 KFunction [(list_ []);
  (list_ []);
  (block 24 26 []);
  types])])])])]);
  (T 27 50 (KVarDecl VVar) [(list_ [(at_ 31 50 KVarDeclarator [(at_ 31 34 (KIdent "bar") []);
  (X 37 50 KFnExpr [none;
  (at_ 37 50 KFunction [(list_ []);
  (list_ []);
  (block 48 50 []);
  types])])])])]);
  (T 51 86 KExprStmt [(X 51 85 (KOther 10) [(at_ 51 57 (KIdent "output") []);
  (X 60 85 (KBin (OpOther 0)) [(X 60 74 (KBin (OpOther 0)) [(X 60 68 (KOther 1) [(X 60 63 (KIdent "foo") []);
  (at_ 64 68 (KPropIdent "name") [])]);
  (X 71 74 (KStr " ") [])]);
  (X 77 85 (KOther 1) [(X 77 80 (KIdent "bar") []);
  (at_ 81 85 (KPropIdent "name") [])])])])])]])
  [1; 27; 51; 87]
  []
  false [].
Definition fx_functions_5_tests : list test := [mkTest LUndef (LStr "foo bar")
    [(1, 1); (2, 1); (3, 1)]
    [(0, 1); (1, 1); (2, 1)]
    [(0, 0); (1, 0)]
    []
    []].

(** functions.yaml: function declaration assignment name (in function) *)
Definition fx_functions_6 : fixture := mkFixture
  (at_ 1 126 KModule [mk KModuleItems [(T 1 47 KFnDecl [(at_ 10 11 (KIdent "a") []);
  (at_ 1 47 KFunction [(list_ []);
  (list_ []);
  (block 15 47 [(T 19 45 (KVarDecl VConst) [(list_ [(at_ 25 45 KVarDeclarator [(at_ 25 28 (KIdent "foo") []);
  (X 31 45 KFnExpr [none;
  (at_ 31 45 KFunction [(list_ []);
  (list_ []);
  (block 43 45 []);
  types])])])])])]);
  types])]);
  (T 48 112 KFnDecl [(at_ 57 58 (KIdent "b") []);
  (at_ 48 112 KFunction [(list_ []);
  (list_ []);
  (block 62 112 [(T 66 92 (KVarDecl VConst) [(list_ [(at_ 72 92 KVarDeclarator [(at_ 72 75 (KIdent "bar") []);
  (X 78 92 KFnExpr [none;
  (at_ 78 92 KFunction [(list_ []);
  (list_ []);
  (block 90 92 []);
  types])])])])]);
  (T 95 110 KReturn [(X 102 110 (KOther 1) [(X 102 105 (KIdent "bar") []);
  (at_ 106 110 (KPropIdent "name") [])])])]);
  types])]);
  (T 113 125 KExprStmt [(X 113 125 (KOther 10) [(at_ 113 119 (KIdent "output") []);
  (X 122 125 (KOther 3) [(X 122 123 (KIdent "b") [])])])])]])
  [1; 17; 46; 48; 64; 93; 111; 113; 126]
  []
  false [].
Definition fx_functions_6_tests : list test := [mkTest LUndef (LStr "bar")
    [(2, 0); (5, 1); (6, 1); (8, 1)]
    [(0, 0); (1, 1); (2, 1); (3, 1)]
    [(0, 0); (1, 0); (2, 1); (3, 0)]
    []
    []].

(** functions.yaml: function named Function *)
Definition fx_functions_7 : fixture := mkFixture
  (at_ 1 66 KModule [mk KModuleItems [(T 1 39 KFnDecl [(at_ 10 18 (KIdent "Function") []);
  (at_ 1 39 KFunction [(list_ []);
  (list_ []);
  (block 22 39 [(T 26 37 KExprStmt [(X 26 37 (KOther 10) [(at_ 26 32 (KOther 1) [(X 26 30 (KOther 44) []);
  (at_ 31 32 (KPropIdent "x") [])]);
  (X 35 37 (KOther 1042) [])])])]);
  types])]);
  (T 40 65 KExprStmt [(X 40 65 (KOther 10) [(at_ 40 46 (KIdent "output") []);
  (X 49 65 (KOther 1) [(X 49 63 (KOther 5) [(X 53 61 (KIdent "Function") [])]);
  (at_ 64 65 (KPropIdent "x") [])])])])]])
  [1; 24; 38; 40; 66]
  []
  false [].
Definition fx_functions_7_tests : list test := [mkTest LUndef (LNum (42)%Z)
    [(2, 1); (4, 1)]
    [(0, 1); (1, 1)]
    [(0, 1)]
    []
    []].

(** functions.yaml: functions declared in an object *)
Definition fx_functions_8 : fixture := mkFixture
  (at_ 1 621 KModule [mk KModuleItems [(T 1 32 (KVarDecl VConst) [(list_ [(at_ 7 31 KVarDeclarator [(at_ 7 18 (KIdent "computedIdx") []);
  (X 21 31 (KStr "computed") [])])])]);
  (T 33 620 (KVarDecl VConst) [(list_ [(at_ 39 619 KVarDeclarator [(at_ 39 42 (KIdent "obj") []);
  (X 45 619 (KOther 41) [(at_ 49 90 KMethodProp [(at_ 49 55 (KPropIdent "normal") []);
  (at_ 49 90 KFunction [(list_ []);
  (list_ []);
  (block 58 90 [(T 64 86 KExprStmt [(X 64 85 (KOther 3) [(X 64 75 (KOther 1) [(X 64 71 (KIdent "console") []);
  (at_ 72 75 (KPropIdent "log") [])]);
  (at_ 76 84 (KOther 4) [(X 76 84 (KStr "normal") [])])])])]);
  types])]);
  (at_ 94 145 KMethodProp [(at_ 94 102 (KStr "string") []);
  (at_ 94 145 KFunction [(list_ []);
  (list_ []);
  (block 105 145 [(T 111 141 KExprStmt [(X 111 140 (KOther 3) [(X 111 122 (KOther 1) [(X 111 118 (KIdent "console") []);
  (at_ 119 122 (KPropIdent "log") [])]);
  (at_ 123 139 (KOther 4) [(X 123 139 (KStr "string literal") [])])])])]);
  types])]);
  (at_ 149 193 KMethodProp [(at_ 149 150 (KOther 1001) []);
  (at_ 149 193 KFunction [(list_ []);
  (list_ []);
  (block 153 193 [(T 159 189 KExprStmt [(X 159 188 (KOther 3) [(X 159 170 (KOther 1) [(X 159 166 (KIdent "console") []);
  (at_ 167 170 (KPropIdent "log") [])]);
  (at_ 171 187 (KOther 4) [(X 171 187 (KStr "number literal") [])])])])]);
  types])]);
  (at_ 197 242 KMethodProp [(at_ 197 199 (KOther 60) []);
  (at_ 197 242 KFunction [(list_ []);
  (list_ []);
  (block 202 242 [(T 208 238 KExprStmt [(X 208 237 (KOther 3) [(X 208 219 (KOther 1) [(X 208 215 (KIdent "console") []);
  (at_ 216 219 (KPropIdent "log") [])]);
  (at_ 220 236 (KOther 4) [(X 220 236 (KStr "bigint literal") [])])])])]);
  types])]);
  (at_ 246 305 KMethodProp [(at_ 247 258 (KOther 2) [(X 247 258 (KIdent "computedIdx") [])]);
  (at_ 246 305 KFunction [(list_ []);
  (list_ []);
  (block 262 305 [(T 268 301 KExprStmt [(X 268 300 (KOther 3) [(X 268 279 (KOther 1) [(X 268 275 (KIdent "console") []);
  (at_ 276 279 (KPropIdent "log") [])]);
  (at_ 280 299 (KOther 4) [(X 280 299 (KStr "computed property") [])])])])]);
  types])]);
  (at_ 309 365 KGetter [(at_ 313 321 (KPropIdent "getterFn") []);
  types;
  (block 324 365 [(T 330 361 KExprStmt [(X 330 360 (KOther 3) [(X 330 341 (KOther 1) [(X 330 337 (KIdent "console") []);
  (at_ 338 341 (KPropIdent "log") [])]);
  (at_ 342 359 (KOther 4) [(X 342 359 (KStr "getter function") [])])])])])]);
  (at_ 369 433 KSetter [(at_ 373 381 (KPropIdent "setterFn") []);
  none;
  (at_ 382 385 (KIdent "val") []);
  (block 387 433 [(T 393 429 KExprStmt [(X 393 428 (KOther 3) [(X 393 404 (KOther 1) [(X 393 400 (KIdent "console") []);
  (at_ 401 404 (KPropIdent "log") [])]);
  (at_ 405 422 (KOther 4) [(X 405 422 (KStr "setter function") [])]);
  (at_ 424 427 (KOther 4) [(X 424 427 (KIdent "val") [])])])])])]);
  (at_ 437 515 KGetter [(at_ 441 451 (KStr "getterFn") []);
  types;
  (block 454 515 [(T 460 511 KExprStmt [(X 460 510 (KOther 3) [(X 460 471 (KOther 1) [(X 460 467 (KIdent "console") []);
  (at_ 468 471 (KPropIdent "log") [])]);
  (at_ 472 509 (KOther 4) [(X 472 509 (KStr "getter function with string literal") [])])])])])]);
  (at_ 519 616 KSetter [(at_ 523 544 (KStr "setterStringLiteral") []);
  none;
  (at_ 545 548 (KIdent "val") []);
  (block 550 616 [(T 556 612 KExprStmt [(X 556 611 (KOther 3) [(X 556 567 (KOther 1) [(X 556 563 (KIdent "console") []);
  (at_ 564 567 (KPropIdent "log") [])]);
  (at_ 568 605 (KOther 4) [(X 568 605 (KStr "setter function with string literal") [])]);
  (at_ 607 610 (KOther 4) [(X 607 610 (KIdent "val") [])])])])])])])])])])]])
  [1; 33; 47; 60; 87; 92; 107; 142; 147; 155; 190; 195; 204; 239; 244; 264; 302; 307; 326; 362; 367; 389; 430; 435; 456; 512; 517; 552; 613; 618; 621]
  []
  false [].
Definition fx_functions_8_tests : list test := [mkTest LUndef LUndef
    [(1, 1); (2, 1); (4, 0); (7, 0); (10, 0); (13, 0); (16, 0); (19, 0); (22, 0); (25, 0); (28, 0)]
    [(0, 1); (1, 1); (2, 0); (3, 0); (4, 0); (5, 0); (6, 0); (7, 0); (8, 0); (9, 0); (10, 0)]
    [(0, 0); (1, 0); (2, 0); (3, 0); (4, 0); (5, 0); (6, 0); (7, 0); (8, 0)]
    []
    []].

(** if-hints.yaml: ignore else *)
Definition fx_if_hints_1 : fixture := mkFixture
  (at_ 1 86 KModule [mk KModuleItems [(T 1 13 KExprStmt [(X 1 12 (KOther 10) [(at_ 1 7 (KIdent "output") []);
  (X 10 12 (KOther 30) [(X 11 12 (KOther 1001) [])])])]);
  (T 41 85 KIf [(X 45 63 (KBin (OpOther 5)) [(X 45 52 (KOther 1) [(X 45 49 (KIdent "args") []);
  (at_ 50 51 (KOther 2) [(X 50 51 (KOther 1000) [])])]);
  (X 55 63 (KOther 1) [(X 55 59 (KIdent "args") []);
  (at_ 61 62 (KOther 2) [(X 61 62 (KOther 1001) [])])])]);
  (T 68 85 KExprStmt [(X 68 84 (KOther 10) [(at_ 68 74 (KIdent "output") []);
  (X 77 84 (KOther 1) [(X 77 81 (KIdent "args") []);
  (at_ 82 83 (KOther 2) [(X 82 83 (KOther 1000) [])])])])]);
  none])]])
  [1; 14; 41; 65; 86]
  [(41, [" istanbul ignore else "])]
  false [].
Definition fx_if_hints_1_tests : list test := [mkTest (LArr [(LNum (20)%Z); (LNum (10)%Z)]) (LNum (20)%Z)
    [(1, 1); (3, 1); (4, 1)]
    [(0, 1); (1, 1); (2, 1)]
    []
    [(0, [1])]
    []].

(** if-hints.yaml: ignore if *)
Definition fx_if_hints_2 : fixture := mkFixture
  (at_ 1 84 KModule [mk KModuleItems [(T 1 13 KExprStmt [(X 1 12 (KOther 10) [(at_ 1 7 (KIdent "output") []);
  (X 10 12 (KOther 30) [(X 11 12 (KOther 1001) [])])])]);
  (T 39 83 KIf [(X 43 61 (KBin (OpOther 5)) [(X 43 50 (KOther 1) [(X 43 47 (KIdent "args") []);
  (at_ 48 49 (KOther 2) [(X 48 49 (KOther 1000) [])])]);
  (X 53 61 (KOther 1) [(X 53 57 (KIdent "args") []);
  (at_ 59 60 (KOther 2) [(X 59 60 (KOther 1001) [])])])]);
  (T 66 83 KExprStmt [(X 66 82 (KOther 10) [(at_ 66 72 (KIdent "output") []);
  (X 75 82 (KOther 1) [(X 75 79 (KIdent "args") []);
  (at_ 80 81 (KOther 2) [(X 80 81 (KOther 1000) [])])])])]);
  none])]])
  [1; 14; 39; 63; 84]
  [(39, [" istanbul ignore if "])]
  false [].
Definition fx_if_hints_2_tests : list test := [mkTest (LArr [(LNum (10)%Z); (LNum (20)%Z)]) (LNum (-1)%Z)
    [(1, 1); (3, 1)]
    [(0, 1); (1, 1)]
    []
    [(0, [1])]
    []].

(** if-hints.yaml: ignore else with if block *)
Definition fx_if_hints_3 : fixture := mkFixture
  (at_ 1 90 KModule [mk KModuleItems [(T 1 13 KExprStmt [(X 1 12 (KOther 10) [(at_ 1 7 (KIdent "output") []);
  (X 10 12 (KOther 30) [(X 11 12 (KOther 1001) [])])])]);
  (T 41 89 KIf [(X 45 63 (KBin (OpOther 5)) [(X 45 52 (KOther 1) [(X 45 49 (KIdent "args") []);
  (at_ 50 51 (KOther 2) [(X 50 51 (KOther 1000) [])])]);
  (X 55 63 (KOther 1) [(X 55 59 (KIdent "args") []);
  (at_ 61 62 (KOther 2) [(X 61 62 (KOther 1001) [])])])]);
  (at_ 65 89 KStmt [(block 65 89 [(T 70 87 KExprStmt [(X 70 86 (KOther 10) [(at_ 70 76 (KIdent "output") []);
  (X 79 86 (KOther 1) [(X 79 83 (KIdent "args") []);
  (at_ 84 85 (KOther 2) [(X 84 85 (KOther 1000) [])])])])])])]);
  none])]])
  [1; 14; 41; 67; 88; 90]
  [(41, [" istanbul ignore else "])]
  false [].
Definition fx_if_hints_3_tests : list test := [mkTest (LArr [(LNum (20)%Z); (LNum (10)%Z)]) (LNum (20)%Z)
    [(1, 1); (3, 1); (4, 1)]
    [(0, 1); (1, 1); (2, 1)]
    []
    [(0, [1])]
    []].

(** if-hints.yaml: ignore if with if block *)
Definition fx_if_hints_4 : fixture := mkFixture
  (at_ 1 88 KModule [mk KModuleItems [(T 1 13 KExprStmt [(X 1 12 (KOther 10) [(at_ 1 7 (KIdent "output") []);
  (X 10 12 (KOther 30) [(X 11 12 (KOther 1001) [])])])]);
  (T 39 87 KIf [(X 43 61 (KBin (OpOther 5)) [(X 43 50 (KOther 1) [(X 43 47 (KIdent "args") []);
  (at_ 48 49 (KOther 2) [(X 48 49 (KOther 1000) [])])]);
  (X 53 61 (KOther 1) [(X 53 57 (KIdent "args") []);
  (at_ 59 60 (KOther 2) [(X 59 60 (KOther 1001) [])])])]);
  (at_ 63 87 KStmt [(block 63 87 [(T 68 85 KExprStmt [(X 68 84 (KOther 10) [(at_ 68 74 (KIdent "output") []);
  (X 77 84 (KOther 1) [(X 77 81 (KIdent "args") []);
  (at_ 82 83 (KOther 2) [(X 82 83 (KOther 1000) [])])])])])])]);
  none])]])
  [1; 14; 39; 65; 86; 88]
  [(39, [" istanbul ignore if "])]
  false [].
Definition fx_if_hints_4_tests : list test := [mkTest (LArr [(LNum (10)%Z); (LNum (20)%Z)]) (LNum (-1)%Z)
    [(1, 1); (3, 1)]
    [(0, 1); (1, 1)]
    []
    [(0, [1])]
    []].

(** if-hints.yaml: ignore else single line *)
Definition fx_if_hints_5 : fixture := mkFixture
  (at_ 1 83 KModule [mk KModuleItems [(T 1 13 KExprStmt [(X 1 12 (KOther 10) [(at_ 1 7 (KIdent "output") []);
  (X 10 12 (KOther 30) [(X 11 12 (KOther 1001) [])])])]);
  (T 41 82 KIf [(X 45 63 (KBin (OpOther 5)) [(X 45 52 (KOther 1) [(X 45 49 (KIdent "args") []);
  (at_ 50 51 (KOther 2) [(X 50 51 (KOther 1000) [])])]);
  (X 55 63 (KOther 1) [(X 55 59 (KIdent "args") []);
  (at_ 61 62 (KOther 2) [(X 61 62 (KOther 1001) [])])])]);
  (T 65 82 KExprStmt [(X 65 81 (KOther 10) [(at_ 65 71 (KIdent "output") []);
  (X 74 81 (KOther 1) [(X 74 78 (KIdent "args") []);
  (at_ 79 80 (KOther 2) [(X 79 80 (KOther 1000) [])])])])]);
  none])]])
  [1; 14; 41; 83]
  [(41, [" istanbul ignore else "])]
  false [].
Definition fx_if_hints_5_tests : list test := [mkTest (LArr [(LNum (20)%Z); (LNum (10)%Z)]) (LNum (20)%Z)
    [(1, 1); (3, 1)]
    [(0, 1); (1, 1); (2, 1)]
    []
    [(0, [1])]
    []].

(** if-hints.yaml: ignore if single line *)
Definition fx_if_hints_6 : fixture := mkFixture
  (at_ 1 81 KModule [mk KModuleItems [(T 1 13 KExprStmt [(X 1 12 (KOther 10) [(at_ 1 7 (KIdent "output") []);
  (X 10 12 (KOther 30) [(X 11 12 (KOther 1001) [])])])]);
  (T 39 80 KIf [(X 43 61 (KBin (OpOther 5)) [(X 43 50 (KOther 1) [(X 43 47 (KIdent "args") []);
  (at_ 48 49 (KOther 2) [(X 48 49 (KOther 1000) [])])]);
  (X 53 61 (KOther 1) [(X 53 57 (KIdent "args") []);
  (at_ 59 60 (KOther 2) [(X 59 60 (KOther 1001) [])])])]);
  (T 63 80 KExprStmt [(X 63 79 (KOther 10) [(at_ 63 69 (KIdent "output") []);
  (X 72 79 (KOther 1) [(X 72 76 (KIdent "args") []);
  (at_ 77 78 (KOther 2) [(X 77 78 (KOther 1000) [])])])])]);
  none])]])
  [1; 14; 39; 81]
  [(39, [" istanbul ignore if "])]
  false [].
Definition fx_if_hints_6_tests : list test := [mkTest (LArr [(LNum (10)%Z); (LNum (20)%Z)]) (LNum (-1)%Z)
    [(1, 1); (3, 1)]
    [(0, 1); (1, 1)]
    []
    [(0, [1])]
    []].

(** if-hints.yaml: ignore else if-block *)
Definition fx_if_hints_7 : fixture := mkFixture
  (at_ 1 87 KModule [mk KModuleItems [(T 1 13 KExprStmt [(X 1 12 (KOther 10) [(at_ 1 7 (KIdent "output") []);
  (X 10 12 (KOther 30) [(X 11 12 (KOther 1001) [])])])]);
  (T 41 86 KIf [(X 45 63 (KBin (OpOther 5)) [(X 45 52 (KOther 1) [(X 45 49 (KIdent "args") []);
  (at_ 50 51 (KOther 2) [(X 50 51 (KOther 1000) [])])]);
  (X 55 63 (KOther 1) [(X 55 59 (KIdent "args") []);
  (at_ 61 62 (KOther 2) [(X 61 62 (KOther 1001) [])])])]);
  (at_ 65 86 KStmt [(block 65 86 [(T 67 84 KExprStmt [(X 67 83 (KOther 10) [(at_ 67 73 (KIdent "output") []);
  (X 76 83 (KOther 1) [(X 76 80 (KIdent "args") []);
  (at_ 81 82 (KOther 2) [(X 81 82 (KOther 1000) [])])])])])])]);
  none])]])
  [1; 14; 41; 87]
  [(41, [" istanbul ignore else "])]
  false [].
Definition fx_if_hints_7_tests : list test := [mkTest (LArr [(LNum (20)%Z); (LNum (10)%Z)]) (LNum (20)%Z)
    [(1, 1); (3, 1)]
    [(0, 1); (1, 1); (2, 1)]
    []
    [(0, [1])]
    []].

(** if-hints.yaml: ignore if block *)
Definition fx_if_hints_8 : fixture := mkFixture
  (at_ 1 85 KModule [mk KModuleItems [(T 1 13 KExprStmt [(X 1 12 (KOther 10) [(at_ 1 7 (KIdent "output") []);
  (X 10 12 (KOther 30) [(X 11 12 (KOther 1001) [])])])]);
  (T 39 84 KIf [(X 43 61 (KBin (OpOther 5)) [(X 43 50 (KOther 1) [(X 43 47 (KIdent "args") []);
  (at_ 48 49 (KOther 2) [(X 48 49 (KOther 1000) [])])]);
  (X 53 61 (KOther 1) [(X 53 57 (KIdent "args") []);
  (at_ 59 60 (KOther 2) [(X 59 60 (KOther 1001) [])])])]);
  (at_ 63 84 KStmt [(block 63 84 [(T 65 82 KExprStmt [(X 65 81 (KOther 10) [(at_ 65 71 (KIdent "output") []);
  (X 74 81 (KOther 1) [(X 74 78 (KIdent "args") []);
  (at_ 79 80 (KOther 2) [(X 79 80 (KOther 1000) [])])])])])])]);
  none])]])
  [1; 14; 39; 85]
  [(39, [" istanbul ignore if "])]
  false [].
Definition fx_if_hints_8_tests : list test := [mkTest (LArr [(LNum (10)%Z); (LNum (20)%Z)]) (LNum (-1)%Z)
    [(1, 1); (3, 1)]
    [(0, 1); (1, 1)]
    []
    [(0, [1])]
    []].

(** if-hints.yaml: ignore using next *)
Definition fx_if_hints_9 : fixture := mkFixture
  (at_ 1 87 KModule [mk KModuleItems [(T 1 13 KExprStmt [(X 1 12 (KOther 10) [(at_ 1 7 (KIdent "output") []);
  (X 10 12 (KOther 30) [(X 11 12 (KOther 1001) [])])])]);
  (T 41 86 KIf [(X 45 63 (KBin (OpOther 5)) [(X 45 52 (KOther 1) [(X 45 49 (KIdent "args") []);
  (at_ 50 51 (KOther 2) [(X 50 51 (KOther 1000) [])])]);
  (X 55 63 (KOther 1) [(X 55 59 (KIdent "args") []);
  (at_ 61 62 (KOther 2) [(X 61 62 (KOther 1001) [])])])]);
  (at_ 65 86 KStmt [(block 65 86 [(T 67 84 KExprStmt [(X 67 83 (KOther 10) [(at_ 67 73 (KIdent "output") []);
  (X 76 83 (KOther 1) [(X 76 80 (KIdent "args") []);
  (at_ 81 82 (KOther 2) [(X 81 82 (KOther 1000) [])])])])])])]);
  none])]])
  [1; 14; 41; 87]
  [(41, [" istanbul ignore next "])]
  false [].
Definition fx_if_hints_9_tests : list test := [mkTest (LArr [(LNum (10)%Z); (LNum (20)%Z)]) (LNum (-1)%Z)
    [(1, 1)]
    [(0, 1)]
    []
    []
    []].

(** if-hints.yaml: ignore else using single line comment *)
Definition fx_if_hints_10 : fixture := mkFixture
  (at_ 25 96 KModule [mk KModuleItems [(T 25 95 KIf [(X 29 47 (KBin (OpOther 5)) [(X 29 36 (KOther 1) [(X 29 33 (KIdent "args") []);
  (at_ 34 35 (KOther 2) [(X 34 35 (KOther 1000) [])])]);
  (X 39 47 (KOther 1) [(X 39 43 (KIdent "args") []);
  (at_ 45 46 (KOther 2) [(X 45 46 (KOther 1001) [])])])]);
  (T 52 69 KExprStmt [(X 52 68 (KOther 10) [(at_ 52 58 (KIdent "output") []);
  (X 61 68 (KOther 1) [(X 61 65 (KIdent "args") []);
  (at_ 66 67 (KOther 2) [(X 66 67 (KOther 1000) [])])])])]);
  (T 78 95 KExprStmt [(X 78 94 (KOther 10) [(at_ 78 84 (KIdent "output") []);
  (X 87 94 (KOther 1) [(X 87 91 (KIdent "args") []);
  (at_ 92 93 (KOther 2) [(X 92 93 (KOther 1001) [])])])])])])]])
  [1; 25; 49; 70; 75; 96]
  [(25, [" istanbul ignore else"])]
  false [].
Definition fx_if_hints_10_tests : list test := [mkTest (LArr [(LNum (20)%Z); (LNum (10)%Z)]) (LNum (20)%Z)
    [(2, 1); (3, 1)]
    [(0, 1); (1, 1)]
    []
    [(0, [1])]
    []].

(** if-hints.yaml: ignore if using single line comment *)
Definition fx_if_hints_11 : fixture := mkFixture
  (at_ 23 94 KModule [mk KModuleItems [(T 23 93 KIf [(X 27 45 (KBin (OpOther 5)) [(X 27 34 (KOther 1) [(X 27 31 (KIdent "args") []);
  (at_ 32 33 (KOther 2) [(X 32 33 (KOther 1000) [])])]);
  (X 37 45 (KOther 1) [(X 37 41 (KIdent "args") []);
  (at_ 43 44 (KOther 2) [(X 43 44 (KOther 1001) [])])])]);
  (T 50 67 KExprStmt [(X 50 66 (KOther 10) [(at_ 50 56 (KIdent "output") []);
  (X 59 66 (KOther 1) [(X 59 63 (KIdent "args") []);
  (at_ 64 65 (KOther 2) [(X 64 65 (KOther 1000) [])])])])]);
  (T 76 93 KExprStmt [(X 76 92 (KOther 10) [(at_ 76 82 (KIdent "output") []);
  (X 85 92 (KOther 1) [(X 85 89 (KIdent "args") []);
  (at_ 90 91 (KOther 2) [(X 90 91 (KOther 1001) [])])])])])])]])
  [1; 23; 47; 68; 73; 94]
  [(23, [" istanbul ignore if"])]
  false [].
Definition fx_if_hints_11_tests : list test := [mkTest (LArr [(LNum (10)%Z); (LNum (20)%Z)]) (LNum (20)%Z)
    [(2, 1); (5, 1)]
    [(0, 1); (1, 1)]
    []
    [(0, [1])]
    []].

(** if-hints.yaml: ignore chained if *)
Definition fx_if_hints_12 : fixture := mkFixture
  (at_ 1 138 KModule [mk KModuleItems [(T 1 137 KIf [(X 5 18 (KBin (OpOther 6)) [(X 5 12 (KOther 1) [(X 5 9 (KIdent "args") []);
  (at_ 10 11 (KOther 2) [(X 10 11 (KOther 1000) [])])]);
  (X 17 18 (KOther 1001) [])]);
  (at_ 20 39 KStmt [(block 20 39 [(T 24 37 KExprStmt [(X 24 36 (KOther 10) [(at_ 24 30 (KIdent "output") []);
  (X 33 36 (KStr "1") [])])])])]);
  (T 70 137 KIf [(X 74 87 (KBin (OpOther 6)) [(X 74 81 (KOther 1) [(X 74 78 (KIdent "args") []);
  (at_ 79 80 (KOther 2) [(X 79 80 (KOther 1000) [])])]);
  (X 86 87 (KOther 1002) [])]);
  (at_ 89 108 KStmt [(block 89 108 [(T 93 106 KExprStmt [(X 93 105 (KOther 10) [(at_ 93 99 (KIdent "output") []);
  (X 102 105 (KStr "2") [])])])])]);
  (at_ 114 137 KStmt [(block 114 137 [(T 118 135 KExprStmt [(X 118 134 (KOther 10) [(at_ 118 124 (KIdent "output") []);
  (X 127 134 (KStr "other") [])])])])])])])]])
  [1; 22; 38; 91; 107; 116; 136; 138]
  [(70, [" istanbul ignore if "])]
  false [].
Definition fx_if_hints_12_tests : list test := [mkTest (LArr [(LNum (1)%Z)]) (LStr "1")
    [(1, 1); (2, 1); (3, 0); (6, 0)]
    [(0, 1); (1, 1); (2, 0); (3, 0)]
    []
    [(0, [1; 0]); (1, [0])]
    []; mkTest (LArr [(LNum (2)%Z)]) (LStr "2")
    [(1, 1); (2, 0); (3, 1); (6, 0)]
    [(0, 1); (1, 0); (2, 1); (3, 0)]
    []
    [(0, [0; 1]); (1, [0])]
    []; mkTest (LArr [(LNum (3)%Z)]) (LStr "other")
    [(1, 1); (2, 0); (3, 1); (6, 1)]
    [(0, 1); (1, 0); (2, 1); (3, 1)]
    []
    [(0, [0; 1]); (1, [1])]
    []].

(** if-hints.yaml: ignore chained else *)
Definition fx_if_hints_13 : fixture := mkFixture
  (at_ 1 184 KModule [mk KModuleItems [(T 1 183 KIf [(X 5 18 (KBin (OpOther 6)) [(X 5 12 (KOther 1) [(X 5 9 (KIdent "args") []);
  (at_ 10 11 (KOther 2) [(X 10 11 (KOther 1000) [])])]);
  (X 17 18 (KOther 1001) [])]);
  (at_ 20 39 KStmt [(block 20 39 [(T 24 37 KExprStmt [(X 24 36 (KOther 10) [(at_ 24 30 (KIdent "output") []);
  (X 33 36 (KStr "1") [])])])])]);
  (T 72 183 KIf [(X 76 89 (KBin (OpOther 6)) [(X 76 83 (KOther 1) [(X 76 80 (KIdent "args") []);
  (at_ 81 82 (KOther 2) [(X 81 82 (KOther 1000) [])])]);
  (X 88 89 (KOther 1002) [])]);
  (at_ 91 110 KStmt [(block 91 110 [(T 95 108 KExprStmt [(X 95 107 (KOther 10) [(at_ 95 101 (KIdent "output") []);
  (X 104 107 (KStr "2") [])])])])]);
  (T 116 183 KIf [(X 120 133 (KBin (OpOther 6)) [(X 120 127 (KOther 1) [(X 120 124 (KIdent "args") []);
  (at_ 125 126 (KOther 2) [(X 125 126 (KOther 1000) [])])]);
  (X 132 133 (KOther 1003) [])]);
  (at_ 135 154 KStmt [(block 135 154 [(T 139 152 KExprStmt [(X 139 151 (KOther 10) [(at_ 139 145 (KIdent "output") []);
  (X 148 151 (KStr "3") [])])])])]);
  (at_ 160 183 KStmt [(block 160 183 [(T 164 181 KExprStmt [(X 164 180 (KOther 10) [(at_ 164 170 (KIdent "output") []);
  (X 173 180 (KStr "other") [])])])])])])])])]])
  [1; 22; 38; 93; 109; 137; 153; 162; 182; 184]
  [(72, [" istanbul ignore else "])]
  false [].
Definition fx_if_hints_13_tests : list test := [mkTest (LArr [(LNum (1)%Z)]) (LStr "1")
    [(1, 1); (2, 1); (3, 0); (4, 0)]
    [(0, 1); (1, 1); (2, 0); (3, 0)]
    []
    [(0, [1; 0]); (1, [0])]
    []; mkTest (LArr [(LNum (2)%Z)]) (LStr "2")
    [(1, 1); (2, 0); (3, 1); (4, 1)]
    [(0, 1); (1, 0); (2, 1); (3, 1)]
    []
    [(0, [0; 1]); (1, [1])]
    []; mkTest (LArr [(LNum (3)%Z)]) (LStr "3")
    [(1, 1); (2, 0); (3, 1); (4, 0)]
    [(0, 1); (1, 0); (2, 1); (3, 0)]
    []
    [(0, [0; 1]); (1, [0])]
    []; mkTest (LArr [(LNum (4)%Z)]) (LStr "other")
    [(1, 1); (2, 0); (3, 1); (4, 0)]
    [(0, 1); (1, 0); (2, 1); (3, 0)]
    []
    [(0, [0; 1]); (1, [0])]
    []].

(** if-hints.yaml: ignore next chained if *)
Definition fx_if_hints_14 : fixture := mkFixture
  (at_ 1 184 KModule [mk KModuleItems [(T 1 183 KIf [(X 5 18 (KBin (OpOther 6)) [(X 5 12 (KOther 1) [(X 5 9 (KIdent "args") []);
  (at_ 10 11 (KOther 2) [(X 10 11 (KOther 1000) [])])]);
  (X 17 18 (KOther 1001) [])]);
  (at_ 20 39 KStmt [(block 20 39 [(T 24 37 KExprStmt [(X 24 36 (KOther 10) [(at_ 24 30 (KIdent "output") []);
  (X 33 36 (KStr "1") [])])])])]);
  (T 72 183 KIf [(X 76 89 (KBin (OpOther 6)) [(X 76 83 (KOther 1) [(X 76 80 (KIdent "args") []);
  (at_ 81 82 (KOther 2) [(X 81 82 (KOther 1000) [])])]);
  (X 88 89 (KOther 1002) [])]);
  (at_ 91 110 KStmt [(block 91 110 [(T 95 108 KExprStmt [(X 95 107 (KOther 10) [(at_ 95 101 (KIdent "output") []);
  (X 104 107 (KStr "2") [])])])])]);
  (T 116 183 KIf [(X 120 133 (KBin (OpOther 6)) [(X 120 127 (KOther 1) [(X 120 124 (KIdent "args") []);
  (at_ 125 126 (KOther 2) [(X 125 126 (KOther 1000) [])])]);
  (X 132 133 (KOther 1003) [])]);
  (at_ 135 154 KStmt [(block 135 154 [(T 139 152 KExprStmt [(X 139 151 (KOther 10) [(at_ 139 145 (KIdent "output") []);
  (X 148 151 (KStr "3") [])])])])]);
  (at_ 160 183 KStmt [(block 160 183 [(T 164 181 KExprStmt [(X 164 180 (KOther 10) [(at_ 164 170 (KIdent "output") []);
  (X 173 180 (KStr "other") [])])])])])])])])]])
  [1; 22; 38; 93; 109; 137; 153; 162; 182; 184]
  [(72, [" istanbul ignore next "])]
  false [].
Definition fx_if_hints_14_tests : list test := [mkTest (LArr [(LNum (1)%Z)]) (LStr "1")
    [(1, 1); (2, 1)]
    [(0, 1); (1, 1)]
    []
    [(0, [1; 0])]
    []; mkTest (LArr [(LNum (2)%Z)]) (LStr "2")
    [(1, 1); (2, 0)]
    [(0, 1); (1, 0)]
    []
    [(0, [0; 1])]
    []; mkTest (LArr [(LNum (3)%Z)]) (LStr "3")
    [(1, 1); (2, 0)]
    [(0, 1); (1, 0)]
    []
    [(0, [0; 1])]
    []; mkTest (LArr [(LNum (4)%Z)]) (LStr "other")
    [(1, 1); (2, 0)]
    [(0, 1); (1, 0)]
    []
    [(0, [0; 1])]
    []].

(** if.yaml: simple if statment *)
Definition fx_if_1 : fixture := mkFixture
  (at_ 1 59 KModule [mk KModuleItems [(T 1 13 KExprStmt [(X 1 12 (KOther 10) [(at_ 1 7 (KIdent "output") []);
  (X 10 12 (KOther 30) [(X 11 12 (KOther 1001) [])])])]);
  (T 14 58 KIf [(X 18 36 (KBin (OpOther 5)) [(X 18 25 (KOther 1) [(X 18 22 (KIdent "args") []);
  (at_ 23 24 (KOther 2) [(X 23 24 (KOther 1000) [])])]);
  (X 28 36 (KOther 1) [(X 28 32 (KIdent "args") []);
  (at_ 34 35 (KOther 2) [(X 34 35 (KOther 1001) [])])])]);
  (T 41 58 KExprStmt [(X 41 57 (KOther 10) [(at_ 41 47 (KIdent "output") []);
  (X 50 57 (KOther 1) [(X 50 54 (KIdent "args") []);
  (at_ 55 56 (KOther 2) [(X 55 56 (KOther 1000) [])])])])]);
  none])]])
  [1; 14; 38; 59]
  []
  false [].
Definition fx_if_1_tests : list test := [mkTest (LArr [(LNum (20)%Z); (LNum (10)%Z)]) (LNum (20)%Z)
    [(1, 1); (2, 1); (3, 1)]
    [(0, 1); (1, 1); (2, 1)]
    []
    [(0, [1; 0])]
    []; mkTest (LArr [(LNum (10)%Z); (LNum (20)%Z)]) (LNum (-1)%Z)
    [(1, 1); (2, 1); (3, 0)]
    [(0, 1); (1, 1); (2, 0)]
    []
    [(0, [0; 1])]
    []].

(** if.yaml: simple if block *)
Definition fx_if_2 : fixture := mkFixture
  (at_ 1 63 KModule [mk KModuleItems [(T 1 13 KExprStmt [(X 1 12 (KOther 10) [(at_ 1 7 (KIdent "output") []);
  (X 10 12 (KOther 30) [(X 11 12 (KOther 1001) [])])])]);
  (T 14 62 KIf [(X 18 36 (KBin (OpOther 5)) [(X 18 25 (KOther 1) [(X 18 22 (KIdent "args") []);
  (at_ 23 24 (KOther 2) [(X 23 24 (KOther 1000) [])])]);
  (X 28 36 (KOther 1) [(X 28 32 (KIdent "args") []);
  (at_ 34 35 (KOther 2) [(X 34 35 (KOther 1001) [])])])]);
  (at_ 38 62 KStmt [(block 38 62 [(T 43 60 KExprStmt [(X 43 59 (KOther 10) [(at_ 43 49 (KIdent "output") []);
  (X 52 59 (KOther 1) [(X 52 56 (KIdent "args") []);
  (at_ 57 58 (KOther 2) [(X 57 58 (KOther 1000) [])])])])])])]);
  none])]])
  [1; 14; 40; 61; 63]
  []
  false [].
Definition fx_if_2_tests : list test := [mkTest (LArr [(LNum (20)%Z); (LNum (10)%Z)]) (LNum (20)%Z)
    [(1, 1); (2, 1); (3, 1)]
    [(0, 1); (1, 1); (2, 1)]
    []
    [(0, [1; 0])]
    []; mkTest (LArr [(LNum (10)%Z); (LNum (20)%Z)]) (LNum (-1)%Z)
    [(1, 1); (2, 1); (3, 0)]
    [(0, 1); (1, 1); (2, 0)]
    []
    [(0, [0; 1])]
    []].

(** if.yaml: simple if single line statement *)
Definition fx_if_3 : fixture := mkFixture
  (at_ 1 56 KModule [mk KModuleItems [(T 1 13 KExprStmt [(X 1 12 (KOther 10) [(at_ 1 7 (KIdent "output") []);
  (X 10 12 (KOther 30) [(X 11 12 (KOther 1001) [])])])]);
  (T 14 55 KIf [(X 18 36 (KBin (OpOther 5)) [(X 18 25 (KOther 1) [(X 18 22 (KIdent "args") []);
  (at_ 23 24 (KOther 2) [(X 23 24 (KOther 1000) [])])]);
  (X 28 36 (KOther 1) [(X 28 32 (KIdent "args") []);
  (at_ 34 35 (KOther 2) [(X 34 35 (KOther 1001) [])])])]);
  (T 38 55 KExprStmt [(X 38 54 (KOther 10) [(at_ 38 44 (KIdent "output") []);
  (X 47 54 (KOther 1) [(X 47 51 (KIdent "args") []);
  (at_ 52 53 (KOther 2) [(X 52 53 (KOther 1000) [])])])])]);
  none])]])
  [1; 14; 56]
  []
  false [].
Definition fx_if_3_tests : list test := [mkTest (LArr [(LNum (20)%Z); (LNum (10)%Z)]) (LNum (20)%Z)
    [(1, 1); (2, 1)]
    [(0, 1); (1, 1); (2, 1)]
    []
    [(0, [1; 0])]
    []; mkTest (LArr [(LNum (10)%Z); (LNum (20)%Z)]) (LNum (-1)%Z)
    [(1, 1); (2, 1)]
    [(0, 1); (1, 1); (2, 0)]
    []
    [(0, [0; 1])]
    []].

(** if.yaml: simple if single line block *)
Definition fx_if_4 : fixture := mkFixture
  (at_ 1 60 KModule [mk KModuleItems [(T 1 13 KExprStmt [(X 1 12 (KOther 10) [(at_ 1 7 (KIdent "output") []);
  (X 10 12 (KOther 30) [(X 11 12 (KOther 1001) [])])])]);
  (T 14 59 KIf [(X 18 36 (KBin (OpOther 5)) [(X 18 25 (KOther 1) [(X 18 22 (KIdent "args") []);
  (at_ 23 24 (KOther 2) [(X 23 24 (KOther 1000) [])])]);
  (X 28 36 (KOther 1) [(X 28 32 (KIdent "args") []);
  (at_ 34 35 (KOther 2) [(X 34 35 (KOther 1001) [])])])]);
  (at_ 38 59 KStmt [(block 38 59 [(T 40 57 KExprStmt [(X 40 56 (KOther 10) [(at_ 40 46 (KIdent "output") []);
  (X 49 56 (KOther 1) [(X 49 53 (KIdent "args") []);
  (at_ 54 55 (KOther 2) [(X 54 55 (KOther 1000) [])])])])])])]);
  none])]])
  [1; 14; 60]
  []
  false [].
Definition fx_if_4_tests : list test := [mkTest (LArr [(LNum (20)%Z); (LNum (10)%Z)]) (LNum (20)%Z)
    [(1, 1); (2, 1)]
    [(0, 1); (1, 1); (2, 1)]
    []
    [(0, [1; 0])]
    []; mkTest (LArr [(LNum (10)%Z); (LNum (20)%Z)]) (LNum (-1)%Z)
    [(1, 1); (2, 1)]
    [(0, 1); (1, 1); (2, 0)]
    []
    [(0, [0; 1])]
    []].

(** if.yaml: simple if-else statement *)
Definition fx_if_5 : fixture := mkFixture
  (at_ 1 72 KModule [mk KModuleItems [(T 1 71 KIf [(X 5 23 (KBin (OpOther 5)) [(X 5 12 (KOther 1) [(X 5 9 (KIdent "args") []);
  (at_ 10 11 (KOther 2) [(X 10 11 (KOther 1000) [])])]);
  (X 15 23 (KOther 1) [(X 15 19 (KIdent "args") []);
  (at_ 21 22 (KOther 2) [(X 21 22 (KOther 1001) [])])])]);
  (T 28 45 KExprStmt [(X 28 44 (KOther 10) [(at_ 28 34 (KIdent "output") []);
  (X 37 44 (KOther 1) [(X 37 41 (KIdent "args") []);
  (at_ 42 43 (KOther 2) [(X 42 43 (KOther 1000) [])])])])]);
  (T 54 71 KExprStmt [(X 54 70 (KOther 10) [(at_ 54 60 (KIdent "output") []);
  (X 63 70 (KOther 1) [(X 63 67 (KIdent "args") []);
  (at_ 68 69 (KOther 2) [(X 68 69 (KOther 1001) [])])])])])])]])
  [1; 25; 46; 51; 72]
  []
  false [].
Definition fx_if_5_tests : list test := [mkTest (LArr [(LNum (20)%Z); (LNum (10)%Z)]) (LNum (20)%Z)
    [(1, 1); (2, 1); (4, 0)]
    [(0, 1); (1, 1); (2, 0)]
    []
    [(0, [1; 0])]
    []; mkTest (LArr [(LNum (10)%Z); (LNum (20)%Z)]) (LNum (20)%Z)
    [(1, 1); (2, 0); (4, 1)]
    [(0, 1); (1, 0); (2, 1)]
    []
    [(0, [0; 1])]
    []].

(** if.yaml: simple if-else block *)
Definition fx_if_6 : fixture := mkFixture
  (at_ 1 80 KModule [mk KModuleItems [(T 1 79 KIf [(X 5 23 (KBin (OpOther 5)) [(X 5 12 (KOther 1) [(X 5 9 (KIdent "args") []);
  (at_ 10 11 (KOther 2) [(X 10 11 (KOther 1000) [])])]);
  (X 15 23 (KOther 1) [(X 15 19 (KIdent "args") []);
  (at_ 21 22 (KOther 2) [(X 21 22 (KOther 1001) [])])])]);
  (at_ 25 49 KStmt [(block 25 49 [(T 30 47 KExprStmt [(X 30 46 (KOther 10) [(at_ 30 36 (KIdent "output") []);
  (X 39 46 (KOther 1) [(X 39 43 (KIdent "args") []);
  (at_ 44 45 (KOther 2) [(X 44 45 (KOther 1000) [])])])])])])]);
  (at_ 55 79 KStmt [(block 55 79 [(T 60 77 KExprStmt [(X 60 76 (KOther 10) [(at_ 60 66 (KIdent "output") []);
  (X 69 76 (KOther 1) [(X 69 73 (KIdent "args") []);
  (at_ 74 75 (KOther 2) [(X 74 75 (KOther 1001) [])])])])])])])])]])
  [1; 27; 48; 57; 78; 80]
  []
  false [].
Definition fx_if_6_tests : list test := [mkTest (LArr [(LNum (20)%Z); (LNum (10)%Z)]) (LNum (20)%Z)
    [(1, 1); (2, 1); (4, 0)]
    [(0, 1); (1, 1); (2, 0)]
    []
    [(0, [1; 0])]
    []; mkTest (LArr [(LNum (10)%Z); (LNum (20)%Z)]) (LNum (20)%Z)
    [(1, 1); (2, 0); (4, 1)]
    [(0, 1); (1, 0); (2, 1)]
    []
    [(0, [0; 1])]
    []].

(** if.yaml: if/else statement on one line *)
Definition fx_if_7 : fixture := mkFixture
  (at_ 1 66 KModule [mk KModuleItems [(T 1 65 KIf [(X 5 23 (KBin (OpOther 5)) [(X 5 12 (KOther 1) [(X 5 9 (KIdent "args") []);
  (at_ 10 11 (KOther 2) [(X 10 11 (KOther 1000) [])])]);
  (X 15 23 (KOther 1) [(X 15 19 (KIdent "args") []);
  (at_ 21 22 (KOther 2) [(X 21 22 (KOther 1001) [])])])]);
  (T 25 42 KExprStmt [(X 25 41 (KOther 10) [(at_ 25 31 (KIdent "output") []);
  (X 34 41 (KOther 1) [(X 34 38 (KIdent "args") []);
  (at_ 39 40 (KOther 2) [(X 39 40 (KOther 1000) [])])])])]);
  (T 48 65 KExprStmt [(X 48 64 (KOther 10) [(at_ 48 54 (KIdent "output") []);
  (X 57 64 (KOther 1) [(X 57 61 (KIdent "args") []);
  (at_ 62 63 (KOther 2) [(X 62 63 (KOther 1001) [])])])])])])]])
  [1; 66]
  []
  false [].
Definition fx_if_7_tests : list test := [mkTest (LArr [(LNum (20)%Z); (LNum (10)%Z)]) (LNum (20)%Z)
    [(1, 1)]
    [(0, 1); (1, 1); (2, 0)]
    []
    [(0, [1; 0])]
    []; mkTest (LArr [(LNum (10)%Z); (LNum (20)%Z)]) (LNum (20)%Z)
    [(1, 1)]
    [(0, 1); (1, 0); (2, 1)]
    []
    [(0, [0; 1])]
    []].

(** if.yaml: if/else statement block on one line *)
Definition fx_if_8 : fixture := mkFixture
  (at_ 1 74 KModule [mk KModuleItems [(T 1 73 KIf [(X 5 23 (KBin (OpOther 5)) [(X 5 12 (KOther 1) [(X 5 9 (KIdent "args") []);
  (at_ 10 11 (KOther 2) [(X 10 11 (KOther 1000) [])])]);
  (X 15 23 (KOther 1) [(X 15 19 (KIdent "args") []);
  (at_ 21 22 (KOther 2) [(X 21 22 (KOther 1001) [])])])]);
  (at_ 25 46 KStmt [(block 25 46 [(T 27 44 KExprStmt [(X 27 43 (KOther 10) [(at_ 27 33 (KIdent "output") []);
  (X 36 43 (KOther 1) [(X 36 40 (KIdent "args") []);
  (at_ 41 42 (KOther 2) [(X 41 42 (KOther 1000) [])])])])])])]);
  (at_ 52 73 KStmt [(block 52 73 [(T 54 71 KExprStmt [(X 54 70 (KOther 10) [(at_ 54 60 (KIdent "output") []);
  (X 63 70 (KOther 1) [(X 63 67 (KIdent "args") []);
  (at_ 68 69 (KOther 2) [(X 68 69 (KOther 1001) [])])])])])])])])]])
  [1; 74]
  []
  false [].
Definition fx_if_8_tests : list test := [mkTest (LArr [(LNum (20)%Z); (LNum (10)%Z)]) (LNum (20)%Z)
    [(1, 1)]
    [(0, 1); (1, 1); (2, 0)]
    []
    [(0, [1; 0])]
    []; mkTest (LArr [(LNum (10)%Z); (LNum (20)%Z)]) (LNum (20)%Z)
    [(1, 1)]
    [(0, 1); (1, 0); (2, 1)]
    []
    [(0, [0; 1])]
    []].

(** if.yaml: if/else mixed then block *)
Definition fx_if_9 : fixture := mkFixture
  (at_ 1 70 KModule [mk KModuleItems [(T 1 69 KIf [(X 5 23 (KBin (OpOther 5)) [(X 5 12 (KOther 1) [(X 5 9 (KIdent "args") []);
  (at_ 10 11 (KOther 2) [(X 10 11 (KOther 1000) [])])]);
  (X 15 23 (KOther 1) [(X 15 19 (KIdent "args") []);
  (at_ 21 22 (KOther 2) [(X 21 22 (KOther 1001) [])])])]);
  (at_ 25 46 KStmt [(block 25 46 [(T 27 44 KExprStmt [(X 27 43 (KOther 10) [(at_ 27 33 (KIdent "output") []);
  (X 36 43 (KOther 1) [(X 36 40 (KIdent "args") []);
  (at_ 41 42 (KOther 2) [(X 41 42 (KOther 1000) [])])])])])])]);
  (T 52 69 KExprStmt [(X 52 68 (KOther 10) [(at_ 52 58 (KIdent "output") []);
  (X 61 68 (KOther 1) [(X 61 65 (KIdent "args") []);
  (at_ 66 67 (KOther 2) [(X 66 67 (KOther 1001) [])])])])])])]])
  [1; 70]
  []
  false [].
Definition fx_if_9_tests : list test := [mkTest (LArr [(LNum (20)%Z); (LNum (10)%Z)]) (LNum (20)%Z)
    [(1, 1)]
    [(0, 1); (1, 1); (2, 0)]
    []
    [(0, [1; 0])]
    []; mkTest (LArr [(LNum (10)%Z); (LNum (20)%Z)]) (LNum (20)%Z)
    [(1, 1)]
    [(0, 1); (1, 0); (2, 1)]
    []
    [(0, [0; 1])]
    []].

(** if.yaml: if/else mixed else block *)
Definition fx_if_10 : fixture := mkFixture
  (at_ 1 70 KModule [mk KModuleItems [(T 1 69 KIf [(X 5 23 (KBin (OpOther 5)) [(X 5 12 (KOther 1) [(X 5 9 (KIdent "args") []);
  (at_ 10 11 (KOther 2) [(X 10 11 (KOther 1000) [])])]);
  (X 15 23 (KOther 1) [(X 15 19 (KIdent "args") []);
  (at_ 21 22 (KOther 2) [(X 21 22 (KOther 1001) [])])])]);
  (T 25 42 KExprStmt [(X 25 41 (KOther 10) [(at_ 25 31 (KIdent "output") []);
  (X 34 41 (KOther 1) [(X 34 38 (KIdent "args") []);
  (at_ 39 40 (KOther 2) [(X 39 40 (KOther 1000) [])])])])]);
  (at_ 48 69 KStmt [(block 48 69 [(T 50 67 KExprStmt [(X 50 66 (KOther 10) [(at_ 50 56 (KIdent "output") []);
  (X 59 66 (KOther 1) [(X 59 63 (KIdent "args") []);
  (at_ 64 65 (KOther 2) [(X 64 65 (KOther 1001) [])])])])])])])])]])
  [1; 70]
  []
  false [].
Definition fx_if_10_tests : list test := [mkTest (LArr [(LNum (20)%Z); (LNum (10)%Z)]) (LNum (20)%Z)
    [(1, 1)]
    [(0, 1); (1, 1); (2, 0)]
    []
    [(0, [1; 0])]
    []; mkTest (LArr [(LNum (10)%Z); (LNum (20)%Z)]) (LNum (20)%Z)
    [(1, 1)]
    [(0, 1); (1, 0); (2, 1)]
    []
    [(0, [0; 1])]
    []].

(** if.yaml: nested if statement/ no block *)
Definition fx_if_11 : fixture := mkFixture
  (at_ 1 78 KModule [mk KModuleItems [(T 1 13 KExprStmt [(X 1 12 (KOther 10) [(at_ 1 7 (KIdent "output") []);
  (X 10 12 (KOther 30) [(X 11 12 (KOther 1001) [])])])]);
  (T 14 77 KIf [(X 18 35 (KBin (OpOther 5)) [(X 18 25 (KOther 1) [(X 18 22 (KIdent "args") []);
  (at_ 23 24 (KOther 2) [(X 23 24 (KOther 1000) [])])]);
  (X 28 35 (KOther 1) [(X 28 32 (KIdent "args") []);
  (at_ 33 34 (KOther 2) [(X 33 34 (KOther 1001) [])])])]);
  (T 37 77 KIf [(X 41 58 (KBin (OpOther 5)) [(X 41 48 (KOther 1) [(X 41 45 (KIdent "args") []);
  (at_ 46 47 (KOther 2) [(X 46 47 (KOther 1001) [])])]);
  (X 51 58 (KOther 1) [(X 51 55 (KIdent "args") []);
  (at_ 56 57 (KOther 2) [(X 56 57 (KOther 1002) [])])])]);
  (T 60 77 KExprStmt [(X 60 76 (KOther 10) [(at_ 60 66 (KIdent "output") []);
  (X 69 76 (KOther 1) [(X 69 73 (KIdent "args") []);
  (at_ 74 75 (KOther 2) [(X 74 75 (KOther 1002) [])])])])]);
  none]);
  none])]])
  [1; 14; 78]
  []
  false [].
Definition fx_if_11_tests : list test := [mkTest (LArr [(LNum (10)%Z); (LNum (20)%Z); (LNum (15)%Z)]) (LNum (-1)%Z)
    [(1, 1); (2, 1)]
    [(0, 1); (1, 1); (2, 0); (3, 0)]
    []
    [(0, [0; 1]); (1, [0; 0])]
    []; mkTest (LArr [(LNum (20)%Z); (LNum (10)%Z); (LNum (15)%Z)]) (LNum (-1)%Z)
    [(1, 1); (2, 1)]
    [(0, 1); (1, 1); (2, 1); (3, 0)]
    []
    [(0, [1; 0]); (1, [0; 1])]
    []; mkTest (LArr [(LNum (20)%Z); (LNum (10)%Z); (LNum (5)%Z)]) (LNum (5)%Z)
    [(1, 1); (2, 1)]
    [(0, 1); (1, 1); (2, 1); (3, 1)]
    []
    [(0, [1; 0]); (1, [1; 0])]
    []].

(** if.yaml: nested if statement/ blocks *)
Definition fx_if_12 : fixture := mkFixture
  (at_ 1 86 KModule [mk KModuleItems [(T 1 13 KExprStmt [(X 1 12 (KOther 10) [(at_ 1 7 (KIdent "output") []);
  (X 10 12 (KOther 30) [(X 11 12 (KOther 1001) [])])])]);
  (T 14 85 KIf [(X 18 35 (KBin (OpOther 5)) [(X 18 25 (KOther 1) [(X 18 22 (KIdent "args") []);
  (at_ 23 24 (KOther 2) [(X 23 24 (KOther 1000) [])])]);
  (X 28 35 (KOther 1) [(X 28 32 (KIdent "args") []);
  (at_ 33 34 (KOther 2) [(X 33 34 (KOther 1001) [])])])]);
  (at_ 37 85 KStmt [(block 37 85 [(T 39 83 KIf [(X 43 60 (KBin (OpOther 5)) [(X 43 50 (KOther 1) [(X 43 47 (KIdent "args") []);
  (at_ 48 49 (KOther 2) [(X 48 49 (KOther 1001) [])])]);
  (X 53 60 (KOther 1) [(X 53 57 (KIdent "args") []);
  (at_ 58 59 (KOther 2) [(X 58 59 (KOther 1002) [])])])]);
  (at_ 62 83 KStmt [(block 62 83 [(T 64 81 KExprStmt [(X 64 80 (KOther 10) [(at_ 64 70 (KIdent "output") []);
  (X 73 80 (KOther 1) [(X 73 77 (KIdent "args") []);
  (at_ 78 79 (KOther 2) [(X 78 79 (KOther 1002) [])])])])])])]);
  none])])]);
  none])]])
  [1; 14; 86]
  []
  false [].
Definition fx_if_12_tests : list test := [mkTest (LArr [(LNum (10)%Z); (LNum (20)%Z); (LNum (15)%Z)]) (LNum (-1)%Z)
    [(1, 1); (2, 1)]
    [(0, 1); (1, 1); (2, 0); (3, 0)]
    []
    [(0, [0; 1]); (1, [0; 0])]
    []; mkTest (LArr [(LNum (20)%Z); (LNum (10)%Z); (LNum (15)%Z)]) (LNum (-1)%Z)
    [(1, 1); (2, 1)]
    [(0, 1); (1, 1); (2, 1); (3, 0)]
    []
    [(0, [1; 0]); (1, [0; 1])]
    []; mkTest (LArr [(LNum (20)%Z); (LNum (10)%Z); (LNum (5)%Z)]) (LNum (5)%Z)
    [(1, 1); (2, 1)]
    [(0, 1); (1, 1); (2, 1); (3, 1)]
    []
    [(0, [1; 0]); (1, [1; 0])]
    []].

(** if.yaml: nested if w/ else no blocks *)
Definition fx_if_13 : fixture := mkFixture
  (at_ 1 101 KModule [mk KModuleItems [(T 1 13 KExprStmt [(X 1 12 (KOther 10) [(at_ 1 7 (KIdent "output") []);
  (X 10 12 (KOther 30) [(X 11 12 (KOther 1001) [])])])]);
  (T 14 100 KIf [(X 18 35 (KBin (OpOther 5)) [(X 18 25 (KOther 1) [(X 18 22 (KIdent "args") []);
  (at_ 23 24 (KOther 2) [(X 23 24 (KOther 1000) [])])]);
  (X 28 35 (KOther 1) [(X 28 32 (KIdent "args") []);
  (at_ 33 34 (KOther 2) [(X 33 34 (KOther 1001) [])])])]);
  (T 37 100 KIf [(X 41 58 (KBin (OpOther 5)) [(X 41 48 (KOther 1) [(X 41 45 (KIdent "args") []);
  (at_ 46 47 (KOther 2) [(X 46 47 (KOther 1001) [])])]);
  (X 51 58 (KOther 1) [(X 51 55 (KIdent "args") []);
  (at_ 56 57 (KOther 2) [(X 56 57 (KOther 1002) [])])])]);
  (T 60 77 KExprStmt [(X 60 76 (KOther 10) [(at_ 60 66 (KIdent "output") []);
  (X 69 76 (KOther 1) [(X 69 73 (KIdent "args") []);
  (at_ 74 75 (KOther 2) [(X 74 75 (KOther 1002) [])])])])]);
  (T 83 100 KExprStmt [(X 83 99 (KOther 10) [(at_ 83 89 (KIdent "output") []);
  (X 92 99 (KOther 1) [(X 92 96 (KIdent "args") []);
  (at_ 97 98 (KOther 2) [(X 97 98 (KOther 1001) [])])])])])]);
  none])]])
  [1; 14; 101]
  []
  false [].
Definition fx_if_13_tests : list test := [mkTest (LArr [(LNum (10)%Z); (LNum (20)%Z); (LNum (15)%Z)]) (LNum (-1)%Z)
    [(1, 1); (2, 1)]
    [(0, 1); (1, 1); (2, 0); (3, 0); (4, 0)]
    []
    [(0, [0; 1]); (1, [0; 0])]
    []; mkTest (LArr [(LNum (20)%Z); (LNum (10)%Z); (LNum (15)%Z)]) (LNum (10)%Z)
    [(1, 1); (2, 1)]
    [(0, 1); (1, 1); (2, 1); (3, 0); (4, 1)]
    []
    [(0, [1; 0]); (1, [0; 1])]
    []; mkTest (LArr [(LNum (20)%Z); (LNum (10)%Z); (LNum (5)%Z)]) (LNum (5)%Z)
    [(1, 1); (2, 1)]
    [(0, 1); (1, 1); (2, 1); (3, 1); (4, 0)]
    []
    [(0, [1; 0]); (1, [1; 0])]
    []].

(** if.yaml: else-ifs with blocks *)
Definition fx_if_14 : fixture := mkFixture
  (at_ 1 189 KModule [mk KModuleItems [(T 1 188 KIf [(X 5 22 (KBin (OpOther 4)) [(X 5 12 (KOther 1) [(X 5 9 (KIdent "args") []);
  (at_ 10 11 (KOther 2) [(X 10 11 (KOther 1000) [])])]);
  (X 15 22 (KOther 1) [(X 15 19 (KIdent "args") []);
  (at_ 20 21 (KOther 2) [(X 20 21 (KOther 1001) [])])])]);
  (at_ 24 49 KStmt [(block 24 49 [(T 30 47 KExprStmt [(X 30 46 (KOther 10) [(at_ 30 36 (KIdent "output") []);
  (X 39 46 (KOther 1) [(X 39 43 (KIdent "args") []);
  (at_ 44 45 (KOther 2) [(X 44 45 (KOther 1000) [])])])])])])]);
  (T 55 188 KIf [(X 59 76 (KBin (OpOther 4)) [(X 59 66 (KOther 1) [(X 59 63 (KIdent "args") []);
  (at_ 64 65 (KOther 2) [(X 64 65 (KOther 1001) [])])]);
  (X 69 76 (KOther 1) [(X 69 73 (KIdent "args") []);
  (at_ 74 75 (KOther 2) [(X 74 75 (KOther 1002) [])])])]);
  (at_ 78 103 KStmt [(block 78 103 [(T 84 101 KExprStmt [(X 84 100 (KOther 10) [(at_ 84 90 (KIdent "output") []);
  (X 93 100 (KOther 1) [(X 93 97 (KIdent "args") []);
  (at_ 98 99 (KOther 2) [(X 98 99 (KOther 1001) [])])])])])])]);
  (T 109 188 KIf [(X 113 130 (KBin (OpOther 4)) [(X 113 120 (KOther 1) [(X 113 117 (KIdent "args") []);
  (at_ 118 119 (KOther 2) [(X 118 119 (KOther 1002) [])])]);
  (X 123 130 (KOther 1) [(X 123 127 (KIdent "args") []);
  (at_ 128 129 (KOther 2) [(X 128 129 (KOther 1003) [])])])]);
  (at_ 132 157 KStmt [(block 132 157 [(T 138 155 KExprStmt [(X 138 154 (KOther 10) [(at_ 138 144 (KIdent "output") []);
  (X 147 154 (KOther 1) [(X 147 151 (KIdent "args") []);
  (at_ 152 153 (KOther 2) [(X 152 153 (KOther 1002) [])])])])])])]);
  (at_ 163 188 KStmt [(block 163 188 [(T 169 186 KExprStmt [(X 169 185 (KOther 10) [(at_ 169 175 (KIdent "output") []);
  (X 178 185 (KOther 1) [(X 178 182 (KIdent "args") []);
  (at_ 183 184 (KOther 2) [(X 183 184 (KOther 1003) [])])])])])])])])])])]])
  [1; 26; 48; 80; 102; 134; 156; 165; 187; 189]
  []
  false [].
Definition fx_if_14_tests : list test := [mkTest (LArr [(LNum (4)%Z); (LNum (3)%Z); (LNum (2)%Z); (LNum (1)%Z)]) (LNum (1)%Z)
    [(1, 1); (2, 0); (3, 1); (4, 0); (5, 1); (6, 0); (8, 1)]
    [(0, 1); (1, 0); (2, 1); (3, 0); (4, 1); (5, 0); (6, 1)]
    []
    [(0, [0; 1]); (1, [0; 1]); (2, [0; 1])]
    []; mkTest (LArr [(LNum (4)%Z); (LNum (3)%Z); (LNum (1)%Z); (LNum (2)%Z)]) (LNum (1)%Z)
    [(1, 1); (2, 0); (3, 1); (4, 0); (5, 1); (6, 1); (8, 0)]
    [(0, 1); (1, 0); (2, 1); (3, 0); (4, 1); (5, 1); (6, 0)]
    []
    [(0, [0; 1]); (1, [0; 1]); (2, [1; 0])]
    []; mkTest (LArr [(LNum (4)%Z); (LNum (2)%Z); (LNum (3)%Z); (LNum (1)%Z)]) (LNum (2)%Z)
    [(1, 1); (2, 0); (3, 1); (4, 1); (5, 0); (6, 0); (8, 0)]
    [(0, 1); (1, 0); (2, 1); (3, 1); (4, 0); (5, 0); (6, 0)]
    []
    [(0, [0; 1]); (1, [1; 0]); (2, [0; 0])]
    []; mkTest (LArr [(LNum (1)%Z); (LNum (2)%Z); (LNum (3)%Z); (LNum (1)%Z)]) (LNum (1)%Z)
    [(1, 1); (2, 1); (3, 0); (4, 0); (5, 0); (6, 0); (8, 0)]
    [(0, 1); (1, 1); (2, 0); (3, 0); (4, 0); (5, 0); (6, 0)]
    []
    [(0, [1; 0]); (1, [0; 0]); (2, [0; 0])]
    []].

(** if.yaml: else/ifs without blocks *)
Definition fx_if_15 : fixture := mkFixture
  (at_ 1 173 KModule [mk KModuleItems [(T 1 172 KIf [(X 5 22 (KBin (OpOther 4)) [(X 5 12 (KOther 1) [(X 5 9 (KIdent "args") []);
  (at_ 10 11 (KOther 2) [(X 10 11 (KOther 1000) [])])]);
  (X 15 22 (KOther 1) [(X 15 19 (KIdent "args") []);
  (at_ 20 21 (KOther 2) [(X 20 21 (KOther 1001) [])])])]);
  (T 28 45 KExprStmt [(X 28 44 (KOther 10) [(at_ 28 34 (KIdent "output") []);
  (X 37 44 (KOther 1) [(X 37 41 (KIdent "args") []);
  (at_ 42 43 (KOther 2) [(X 42 43 (KOther 1000) [])])])])]);
  (T 51 172 KIf [(X 55 72 (KBin (OpOther 4)) [(X 55 62 (KOther 1) [(X 55 59 (KIdent "args") []);
  (at_ 60 61 (KOther 2) [(X 60 61 (KOther 1001) [])])]);
  (X 65 72 (KOther 1) [(X 65 69 (KIdent "args") []);
  (at_ 70 71 (KOther 2) [(X 70 71 (KOther 1002) [])])])]);
  (T 78 95 KExprStmt [(X 78 94 (KOther 10) [(at_ 78 84 (KIdent "output") []);
  (X 87 94 (KOther 1) [(X 87 91 (KIdent "args") []);
  (at_ 92 93 (KOther 2) [(X 92 93 (KOther 1001) [])])])])]);
  (T 101 172 KIf [(X 105 122 (KBin (OpOther 4)) [(X 105 112 (KOther 1) [(X 105 109 (KIdent "args") []);
  (at_ 110 111 (KOther 2) [(X 110 111 (KOther 1002) [])])]);
  (X 115 122 (KOther 1) [(X 115 119 (KIdent "args") []);
  (at_ 120 121 (KOther 2) [(X 120 121 (KOther 1003) [])])])]);
  (T 128 145 KExprStmt [(X 128 144 (KOther 10) [(at_ 128 134 (KIdent "output") []);
  (X 137 144 (KOther 1) [(X 137 141 (KIdent "args") []);
  (at_ 142 143 (KOther 2) [(X 142 143 (KOther 1002) [])])])])]);
  (T 155 172 KExprStmt [(X 155 171 (KOther 10) [(at_ 155 161 (KIdent "output") []);
  (X 164 171 (KOther 1) [(X 164 168 (KIdent "args") []);
  (at_ 169 170 (KOther 2) [(X 169 170 (KOther 1003) [])])])])])])])])]])
  [1; 24; 46; 74; 96; 124; 146; 151; 173]
  []
  false [].
Definition fx_if_15_tests : list test := [mkTest (LArr [(LNum (4)%Z); (LNum (3)%Z); (LNum (2)%Z); (LNum (1)%Z)]) (LNum (1)%Z)
    [(1, 1); (2, 0); (3, 1); (4, 0); (5, 1); (6, 0); (8, 1)]
    [(0, 1); (1, 0); (2, 1); (3, 0); (4, 1); (5, 0); (6, 1)]
    []
    [(0, [0; 1]); (1, [0; 1]); (2, [0; 1])]
    []; mkTest (LArr [(LNum (4)%Z); (LNum (3)%Z); (LNum (1)%Z); (LNum (2)%Z)]) (LNum (1)%Z)
    [(1, 1); (2, 0); (3, 1); (4, 0); (5, 1); (6, 1); (8, 0)]
    [(0, 1); (1, 0); (2, 1); (3, 0); (4, 1); (5, 1); (6, 0)]
    []
    [(0, [0; 1]); (1, [0; 1]); (2, [1; 0])]
    []; mkTest (LArr [(LNum (4)%Z); (LNum (2)%Z); (LNum (3)%Z); (LNum (1)%Z)]) (LNum (2)%Z)
    [(1, 1); (2, 0); (3, 1); (4, 1); (5, 0); (6, 0); (8, 0)]
    [(0, 1); (1, 0); (2, 1); (3, 1); (4, 0); (5, 0); (6, 0)]
    []
    [(0, [0; 1]); (1, [1; 0]); (2, [0; 0])]
    []; mkTest (LArr [(LNum (1)%Z); (LNum (2)%Z); (LNum (3)%Z); (LNum (1)%Z)]) (LNum (1)%Z)
    [(1, 1); (2, 1); (3, 0); (4, 0); (5, 0); (6, 0); (8, 0)]
    [(0, 1); (1, 1); (2, 0); (3, 0); (4, 0); (5, 0); (6, 0)]
    []
    [(0, [1; 0]); (1, [0; 0]); (2, [0; 0])]
    []].

(** if.yaml: stream of consciousness if/elses *)
Definition fx_if_16 : fixture := mkFixture
  (at_ 1 157 KModule [mk KModuleItems [(T 1 156 KIf [(X 5 22 (KBin (OpOther 4)) [(X 5 12 (KOther 1) [(X 5 9 (KIdent "args") []);
  (at_ 10 11 (KOther 2) [(X 10 11 (KOther 1000) [])])]);
  (X 15 22 (KOther 1) [(X 15 19 (KIdent "args") []);
  (at_ 20 21 (KOther 2) [(X 20 21 (KOther 1001) [])])])]);
  (T 24 41 KExprStmt [(X 24 40 (KOther 10) [(at_ 24 30 (KIdent "output") []);
  (X 33 40 (KOther 1) [(X 33 37 (KIdent "args") []);
  (at_ 38 39 (KOther 2) [(X 38 39 (KOther 1000) [])])])])]);
  (T 47 156 KIf [(X 51 68 (KBin (OpOther 4)) [(X 51 58 (KOther 1) [(X 51 55 (KIdent "args") []);
  (at_ 56 57 (KOther 2) [(X 56 57 (KOther 1001) [])])]);
  (X 61 68 (KOther 1) [(X 61 65 (KIdent "args") []);
  (at_ 66 67 (KOther 2) [(X 66 67 (KOther 1002) [])])])]);
  (T 70 87 KExprStmt [(X 70 86 (KOther 10) [(at_ 70 76 (KIdent "output") []);
  (X 79 86 (KOther 1) [(X 79 83 (KIdent "args") []);
  (at_ 84 85 (KOther 2) [(X 84 85 (KOther 1001) [])])])])]);
  (T 93 156 KIf [(X 97 114 (KBin (OpOther 4)) [(X 97 104 (KOther 1) [(X 97 101 (KIdent "args") []);
  (at_ 102 103 (KOther 2) [(X 102 103 (KOther 1002) [])])]);
  (X 107 114 (KOther 1) [(X 107 111 (KIdent "args") []);
  (at_ 112 113 (KOther 2) [(X 112 113 (KOther 1003) [])])])]);
  (T 116 133 KExprStmt [(X 116 132 (KOther 10) [(at_ 116 122 (KIdent "output") []);
  (X 125 132 (KOther 1) [(X 125 129 (KIdent "args") []);
  (at_ 130 131 (KOther 2) [(X 130 131 (KOther 1002) [])])])])]);
  (T 139 156 KExprStmt [(X 139 155 (KOther 10) [(at_ 139 145 (KIdent "output") []);
  (X 148 155 (KOther 1) [(X 148 152 (KIdent "args") []);
  (at_ 153 154 (KOther 2) [(X 153 154 (KOther 1003) [])])])])])])])])]])
  [1; 157]
  []
  false [].
Definition fx_if_16_tests : list test := [mkTest (LArr [(LNum (4)%Z); (LNum (3)%Z); (LNum (2)%Z); (LNum (1)%Z)]) (LNum (1)%Z)
    [(1, 1)]
    [(0, 1); (1, 0); (2, 1); (3, 0); (4, 1); (5, 0); (6, 1)]
    []
    [(0, [0; 1]); (1, [0; 1]); (2, [0; 1])]
    []; mkTest (LArr [(LNum (4)%Z); (LNum (3)%Z); (LNum (1)%Z); (LNum (2)%Z)]) (LNum (1)%Z)
    [(1, 1)]
    [(0, 1); (1, 0); (2, 1); (3, 0); (4, 1); (5, 1); (6, 0)]
    []
    [(0, [0; 1]); (1, [0; 1]); (2, [1; 0])]
    []; mkTest (LArr [(LNum (4)%Z); (LNum (2)%Z); (LNum (3)%Z); (LNum (1)%Z)]) (LNum (2)%Z)
    [(1, 1)]
    [(0, 1); (1, 0); (2, 1); (3, 1); (4, 0); (5, 0); (6, 0)]
    []
    [(0, [0; 1]); (1, [1; 0]); (2, [0; 0])]
    []; mkTest (LArr [(LNum (1)%Z); (LNum (2)%Z); (LNum (3)%Z); (LNum (1)%Z)]) (LNum (1)%Z)
    [(1, 1)]
    [(0, 1); (1, 1); (2, 0); (3, 0); (4, 0); (5, 0); (6, 0)]
    []
    [(0, [1; 0]); (1, [0; 0]); (2, [0; 0])]
    []].

(** if.yaml: else/ifs normal layout *)
Definition fx_if_17 : fixture := mkFixture
  (at_ 1 164 KModule [mk KModuleItems [(T 1 18 KExprStmt [(X 1 17 (KOther 10) [(at_ 1 7 (KIdent "output") []);
  (X 10 17 (KOther 1) [(X 10 14 (KIdent "args") []);
  (at_ 15 16 (KOther 2) [(X 15 16 (KOther 1003) [])])])])]);
  (T 19 163 KIf [(X 23 40 (KBin (OpOther 4)) [(X 23 30 (KOther 1) [(X 23 27 (KIdent "args") []);
  (at_ 28 29 (KOther 2) [(X 28 29 (KOther 1000) [])])]);
  (X 33 40 (KOther 1) [(X 33 37 (KIdent "args") []);
  (at_ 38 39 (KOther 2) [(X 38 39 (KOther 1001) [])])])]);
  (T 46 63 KExprStmt [(X 46 62 (KOther 10) [(at_ 46 52 (KIdent "output") []);
  (X 55 62 (KOther 1) [(X 55 59 (KIdent "args") []);
  (at_ 60 61 (KOther 2) [(X 60 61 (KOther 1000) [])])])])]);
  (T 69 163 KIf [(X 73 90 (KBin (OpOther 4)) [(X 73 80 (KOther 1) [(X 73 77 (KIdent "args") []);
  (at_ 78 79 (KOther 2) [(X 78 79 (KOther 1001) [])])]);
  (X 83 90 (KOther 1) [(X 83 87 (KIdent "args") []);
  (at_ 88 89 (KOther 2) [(X 88 89 (KOther 1002) [])])])]);
  (T 96 113 KExprStmt [(X 96 112 (KOther 10) [(at_ 96 102 (KIdent "output") []);
  (X 105 112 (KOther 1) [(X 105 109 (KIdent "args") []);
  (at_ 110 111 (KOther 2) [(X 110 111 (KOther 1001) [])])])])]);
  (T 119 163 KIf [(X 123 140 (KBin (OpOther 4)) [(X 123 130 (KOther 1) [(X 123 127 (KIdent "args") []);
  (at_ 128 129 (KOther 2) [(X 128 129 (KOther 1002) [])])]);
  (X 133 140 (KOther 1) [(X 133 137 (KIdent "args") []);
  (at_ 138 139 (KOther 2) [(X 138 139 (KOther 1003) [])])])]);
  (T 146 163 KExprStmt [(X 146 162 (KOther 10) [(at_ 146 152 (KIdent "output") []);
  (X 155 162 (KOther 1) [(X 155 159 (KIdent "args") []);
  (at_ 160 161 (KOther 2) [(X 160 161 (KOther 1002) [])])])])]);
  none])])])]])
  [1; 42; 64; 92; 114; 142; 164]
  []
  false [].
Definition fx_if_17_tests : list test := [mkTest (LArr [(LNum (4)%Z); (LNum (3)%Z); (LNum (2)%Z); (LNum (1)%Z)]) (LNum (1)%Z)
    [(1, 1); (2, 0); (3, 1); (4, 0); (5, 1); (6, 0)]
    [(0, 1); (1, 1); (2, 0); (3, 1); (4, 0); (5, 1); (6, 0)]
    []
    [(0, [0; 1]); (1, [0; 1]); (2, [0; 1])]
    []; mkTest (LArr [(LNum (4)%Z); (LNum (3)%Z); (LNum (1)%Z); (LNum (2)%Z)]) (LNum (1)%Z)
    [(1, 1); (2, 0); (3, 1); (4, 0); (5, 1); (6, 1)]
    [(0, 1); (1, 1); (2, 0); (3, 1); (4, 0); (5, 1); (6, 1)]
    []
    [(0, [0; 1]); (1, [0; 1]); (2, [1; 0])]
    []; mkTest (LArr [(LNum (4)%Z); (LNum (2)%Z); (LNum (3)%Z); (LNum (1)%Z)]) (LNum (2)%Z)
    [(1, 1); (2, 0); (3, 1); (4, 1); (5, 0); (6, 0)]
    [(0, 1); (1, 1); (2, 0); (3, 1); (4, 1); (5, 0); (6, 0)]
    []
    [(0, [0; 1]); (1, [1; 0]); (2, [0; 0])]
    []; mkTest (LArr [(LNum (1)%Z); (LNum (2)%Z); (LNum (3)%Z); (LNum (1)%Z)]) (LNum (1)%Z)
    [(1, 1); (2, 1); (3, 0); (4, 0); (5, 0); (6, 0)]
    [(0, 1); (1, 1); (2, 1); (3, 0); (4, 0); (5, 0); (6, 0)]
    []
    [(0, [1; 0]); (1, [0; 0]); (2, [0; 0])]
    []].

(** ignore.yaml: ignore file comment *)
Definition fx_ignore_1 : fixture := mkFixture
  (at_ 28 78 KModule [mk KModuleItems [(T 28 77 KExprStmt [(X 28 77 (KOther 10) [(at_ 28 34 (KIdent "output") []);
  (X 37 77 KCond [(X 37 50 (KBin (OpOther 6)) [(X 37 41 (KOther 52) []);
  (X 46 50 (KOther 52) [])]);
  (X 53 60 (KStr "works") []);
  (X 63 77 (KStr "doesn't work") [])])])])]])
  [1; 28; 78]
  [(28, [" istanbul ignore file "])]
  false [].
Definition fx_ignore_1_tests : list test := [].

(** input-source-map.yaml: defined input source map *)
Definition fx_input_source_map_1 : fixture := mkFixture
  (at_ 1 17 KModule [mk KModuleItems [(T 1 16 KExprStmt [(X 1 16 (KOther 10) [(at_ 1 7 (KIdent "output") []);
  (X 10 16 (KStr "test") [])])])]])
  [1; 17]
  []
  false [].
Definition fx_input_source_map_1_tests : list test := [mkTest (LArr []) (LStr "test")
    [(1, 1)]
    [(0, 1)]
    []
    []
    []].

(** input-source-map.yaml: without input source map *)
Definition fx_input_source_map_2 : fixture := mkFixture
  (at_ 1 17 KModule [mk KModuleItems [(T 1 16 KExprStmt [(X 1 16 (KOther 10) [(at_ 1 7 (KIdent "output") []);
  (X 10 16 (KStr "test") [])])])]])
  [1; 17]
  []
  false [].
Definition fx_input_source_map_2_tests : list test := [mkTest (LArr []) (LStr "test")
    [(1, 1)]
    [(0, 1)]
    []
    []
    []].

(** issue-233.yaml: issue 233 *)
Definition fx_issue_233_1 : fixture := mkFixture
  (at_ 1 91 KModule [mk KModuleItems [(T 1 11 (KVarDecl VLet) [(list_ [(at_ 5 10 KVarDeclarator [(at_ 5 6 (KIdent "i") []);
  (X 9 10 (KOther 1000) [])])])]);
  (T 13 75 (KVarDecl VConst) [(list_ [(at_ 19 75 KVarDeclarator [(at_ 19 20 (KIdent "t") []);
  (X 23 75 (KBin OpAnd) [(X 23 27 (KOther 52) []);
  (X 31 75 (KOther 41) [(at_ 37 72 (KOther 42) [(at_ 37 45 (KPropIdent "renderFn") []);
  (X 47 72 KArrow [(list_ []);
  (block 53 72 [(T 63 66 KExprStmt [(X 63 66 (KOther 20) [(X 63 64 (KIdent "i") [])])])]);
  types])])])])])])]);
  (T 77 90 KExprStmt [(X 77 89 (KOther 3) [(X 77 87 (KOther 1) [(X 77 78 (KIdent "t") []);
  (at_ 79 87 (KPropIdent "renderFn") [])])])])]])
  [1; 12; 13; 33; 55; 67; 74; 76; 77; 91]
  []
  false [].
Definition fx_issue_233_1_tests : list test := [mkTest LUndef LUndef
    [(1, 1); (3, 1); (5, 1); (9, 1)]
    [(0, 1); (1, 1); (2, 1); (3, 1)]
    [(0, 1)]
    [(0, [1; 1])]
    []].

(** issue-258.yaml: issue 258 - class property arrow function coverage *)
Definition fx_issue_258_1 : fixture := mkFixture
  (at_ 1 238 KModule [mk KModuleItems [(T 1 148 KClassDecl [(at_ 7 14 (KIdent "Testing") []);
  (at_ 1 148 KClass [(list_ []);
  (list_ [(at_ 19 88 KClassMethod [(at_ 19 25 (KPropIdent "method") []);
  (at_ 19 88 KFunction [(list_ []);
  (list_ []);
  (block 28 88 [(T 34 84 KReturn [(X 41 83 (KBin (OpOther 0)) [(X 41 57 (KStr "Hello, World! ") []);
  (X 60 83 (KOther 3) [(X 60 81 (KOther 1) [(X 60 64 (KOther 44) []);
  (at_ 65 81 (KPropIdent "propertyFunction") [])])])])])]);
  types])]);
  (at_ 92 146 KClassProp [(at_ 92 108 (KPropIdent "propertyFunction") []);
  (X 111 145 KArrow [(list_ []);
  (block 117 145 [(T 123 141 KReturn [(X 130 140 (KStr "Instance") [])])]);
  types]);
  types;
  (list_ [])])]);
  none;
  types])]);
  (T 150 181 (KVarDecl VConst) [(list_ [(at_ 156 180 KVarDeclarator [(at_ 156 164 (KIdent "instance") []);
  (X 167 180 (KOther 5) [(X 171 178 (KIdent "Testing") [])])])])]);
  (T 182 237 KExprStmt [(X 182 236 (KOther 10) [(at_ 182 188 (KIdent "output") []);
  (X 191 236 KCond [(X 191 201 (KBin (OpOther 6)) [(X 191 195 (KIdent "args") []);
  (X 200 201 (KOther 1001) [])]);
  (X 204 221 (KOther 3) [(X 204 219 (KOther 1) [(X 204 212 (KIdent "instance") []);
  (at_ 213 219 (KPropIdent "method") [])])]);
  (X 224 236 (KStr "not called") [])])])])]])
  [1; 17; 30; 85; 89; 90; 119; 142; 147; 149; 150; 182; 238]
  []
  false [].
Definition fx_issue_258_1_tests : list test := [mkTest (LNum (1)%Z) (LStr "Hello, World! Instance")
    [(3, 1); (6, 1); (7, 1); (11, 1); (12, 1)]
    [(0, 1); (1, 1); (2, 1); (3, 1); (4, 1)]
    [(0, 1); (1, 1)]
    [(0, [1; 0])]
    []; mkTest (LNum (2)%Z) (LStr "not called")
    [(3, 0); (6, 1); (7, 0); (11, 1); (12, 1)]
    [(0, 0); (1, 1); (2, 0); (3, 1); (4, 1)]
    [(0, 0); (1, 0)]
    [(0, [0; 1])]
    []].

(** issue-277.yaml: export const statements coverage (issue 277) *)
Definition fx_issue_277_1 : fixture := mkFixture
  (at_ 1 70 KModule [mk KModuleItems [(at_ 1 33 KModuleDecl [(at_ 1 33 KExportDecl [(at_ 8 33 (KVarDecl VConst) [(list_ [(at_ 14 32 KVarDeclarator [(at_ 14 19 (KIdent "sayHi") []);
  (X 22 32 KArrow [(list_ []);
  (X 28 32 (KStr "hi") []);
  types])])])])])]);
  (at_ 35 69 KModuleDecl [(at_ 35 69 KExportDecl [(at_ 42 69 (KVarDecl VConst) [(list_ [(at_ 48 68 KVarDeclarator [(at_ 48 54 (KIdent "sayHii") []);
  (X 57 68 KArrow [(list_ []);
  (X 63 68 (KStr "hii") []);
  types])])])])])])]])
  [1; 34; 35; 70]
  []
  false [].
Definition fx_issue_277_1_tests : list test := [mkTest LUndef LUndef
    [(1, 1); (3, 1)]
    [(0, 1); (1, 0); (2, 1); (3, 0)]
    [(0, 0); (1, 0)]
    []
    []].

(** meta-property.yaml: meta properties *)
Definition fx_meta_property_1 : fixture := mkFixture
  (at_ 1 165 KModule [mk KModuleItems [(T 1 14 KExprStmt [(X 1 13 (KStr "use strict") [])]);
  (T 15 164 KClassDecl [(at_ 21 29 (KIdent "FooClass") []);
  (at_ 15 164 KClass [(list_ []);
  (list_ [(at_ 35 162 (KOther 58) [(at_ 35 46 (KPropIdent "constructor") []);
  (list_ []);
  (block 49 162 [(T 58 157 KIf [(X 62 85 (KBin (OpOther 6)) [(X 62 72 (KOther 45) []);
  (X 77 85 (KIdent "FooClass") [])]);
  (at_ 87 157 KStmt [(block 87 157 [(T 100 148 KThrow [(X 106 147 (KOther 5) [(X 110 115 (KIdent "Error") []);
  (at_ 116 146 (KOther 4) [(X 116 146 (KStr "Cannot instantiate directly.") [])])])])])]);
  none])])])]);
  none;
  types])])]])
  [1; 15; 32; 51; 89; 149; 158; 163; 165]
  []
  false [].
Definition fx_meta_property_1_tests : list test := [].

(** object-method.yaml: object method *)
Definition fx_object_method_1 : fixture := mkFixture
  (at_ 1 61 KModule [mk KModuleItems [(T 1 40 (KVarDecl VConst) [(list_ [(at_ 7 40 KVarDeclarator [(at_ 7 10 (KIdent "foo") []);
  (X 13 40 (KOther 41) [(at_ 14 39 KMethodProp [(at_ 14 18 (KPropIdent "test") []);
  (at_ 14 39 KFunction [(list_ []);
  (list_ []);
  (block 21 39 [(T 23 37 KReturn [(X 30 37 (KStr "value") [])])]);
  types])])])])])]);
  (T 41 60 KExprStmt [(X 41 60 (KOther 10) [(at_ 41 47 (KIdent "output") []);
  (X 50 60 (KOther 3) [(X 50 58 (KOther 1) [(X 50 53 (KIdent "foo") []);
  (at_ 54 58 (KPropIdent "test") [])])])])])]])
  [1; 41; 61]
  []
  false [].
Definition fx_object_method_1_tests : list test := [mkTest LUndef (LStr "value")
    [(1, 1); (2, 1)]
    [(0, 1); (1, 1); (2, 1)]
    [(0, 1)]
    []
    []].

(** object-method.yaml: object getter *)
Definition fx_object_method_2 : fixture := mkFixture
  (at_ 1 64 KModule [mk KModuleItems [(T 1 44 (KVarDecl VConst) [(list_ [(at_ 7 44 KVarDeclarator [(at_ 7 10 (KIdent "foo") []);
  (X 13 44 (KOther 41) [(at_ 14 43 KGetter [(at_ 18 22 (KPropIdent "test") []);
  types;
  (block 25 43 [(T 27 41 KReturn [(X 34 41 (KStr "value") [])])])])])])])]);
  (T 45 63 KExprStmt [(X 45 62 (KOther 10) [(at_ 45 51 (KIdent "output") []);
  (X 54 62 (KOther 1) [(X 54 57 (KIdent "foo") []);
  (at_ 58 62 (KPropIdent "test") [])])])])]])
  [1; 45; 64]
  []
  false [].
Definition fx_object_method_2_tests : list test := [mkTest LUndef (LStr "value")
    [(1, 1); (2, 1)]
    [(0, 1); (1, 1); (2, 1)]
    [(0, 1)]
    []
    []].

(** object-spread.yaml: ES6 Object Spread *)
Definition fx_object_spread_1 : fixture := mkFixture
  (at_ 1 58 KModule [mk KModuleItems [(T 1 25 (KVarDecl VConst) [(list_ [(at_ 7 25 KVarDeclarator [(at_ 7 8 (KIdent "a") []);
  (X 11 25 (KOther 41) [(at_ 12 24 (KOther 42) [(at_ 12 15 (KPropIdent "foo") []);
  (X 17 24 (KOther 1) [(X 17 21 (KIdent "args") []);
  (at_ 22 23 (KOther 2) [(X 22 23 (KOther 1000) [])])])])])])])]);
  (T 26 42 (KVarDecl VConst) [(list_ [(at_ 32 42 KVarDeclarator [(at_ 32 33 (KIdent "b") []);
  (X 36 42 (KOther 41) [(at_ 37 41 (KOther 43) [(X 40 41 (KIdent "a") [])])])])])]);
  (T 43 57 KExprStmt [(X 43 57 (KOther 10) [(at_ 43 49 (KIdent "output") []);
  (X 52 57 (KOther 1) [(X 52 53 (KIdent "b") []);
  (at_ 54 57 (KPropIdent "foo") [])])])])]])
  [1; 26; 43; 58]
  []
  false [].
Definition fx_object_spread_1_tests : list test := [mkTest (LArr [(LNum (10)%Z)]) (LNum (10)%Z)
    [(1, 1); (2, 1); (3, 1)]
    [(0, 1); (1, 1); (2, 1)]
    []
    []
    []].

(** statement-hints.yaml: ignore before simple statement with branches *)
Definition fx_statement_hints_1 : fixture := mkFixture
  (at_ 28 81 KModule [mk KModuleItems [(T 28 68 (KVarDecl VVar) [(list_ [(at_ 32 67 KVarDeclarator [(at_ 32 33 (KIdent "x") []);
  (X 36 67 KCond [(X 36 47 (KBin (OpOther 5)) [(X 36 43 (KOther 1) [(X 36 40 (KIdent "args") []);
  (at_ 41 42 (KOther 2) [(X 41 42 (KOther 1000) [])])]);
  (X 46 47 (KOther 1005) [])]);
  (X 50 57 (KOther 1) [(X 50 54 (KIdent "args") []);
  (at_ 55 56 (KOther 2) [(X 55 56 (KOther 1000) [])])]);
  (X 60 67 (KStr "undef") [])])])])]);
  (T 69 80 KExprStmt [(X 69 79 (KOther 10) [(at_ 69 75 (KIdent "output") []);
  (X 78 79 (KIdent "x") [])])])]])
  [1; 28; 69; 81]
  [(28, [" istanbul ignore next "])]
  false [].
Definition fx_statement_hints_1_tests : list test := [mkTest (LArr [(LNum (10)%Z)]) (LNum (10)%Z)
    [(3, 1)]
    [(0, 1)]
    []
    []
    []].

(** statement-hints.yaml: ignore before function declaration *)
Definition fx_statement_hints_2 : fixture := mkFixture
  (at_ 28 76 KModule [mk KModuleItems [(T 28 57 KFnDecl [(at_ 37 40 (KIdent "foo") []);
  (at_ 28 57 KFunction [(list_ [(at_ 41 42 (KOther 49) [(at_ 41 42 (KIdent "x") [])])]);
  (list_ []);
  (block 44 57 [(T 46 55 KReturn [(X 53 54 (KIdent "x") [])])]);
  types])]);
  (T 58 75 KExprStmt [(X 58 74 (KOther 10) [(at_ 58 64 (KIdent "output") []);
  (X 67 74 (KOther 1) [(X 67 71 (KIdent "args") []);
  (at_ 72 73 (KOther 2) [(X 72 73 (KOther 1000) [])])])])])]])
  [1; 28; 58; 76]
  [(28, [" istanbul ignore next "])]
  false [].
Definition fx_statement_hints_2_tests : list test := [mkTest (LArr [(LNum (10)%Z)]) (LNum (10)%Z)
    [(3, 1)]
    [(0, 1)]
    []
    []
    []].

(** statement-hints.yaml: ignore before func expressions *)
Definition fx_statement_hints_3 : fixture := mkFixture
  (at_ 28 67 KModule [mk KModuleItems [(T 28 66 KExprStmt [(X 28 65 (KOther 3) [(X 28 63 KParen [(X 29 62 KFnExpr [none;
  (at_ 29 62 KFunction [(list_ []);
  (list_ []);
  (block 41 62 [(T 43 60 KExprStmt [(X 43 59 (KOther 10) [(at_ 43 49 (KIdent "output") []);
  (X 52 59 (KOther 1) [(X 52 56 (KIdent "args") []);
  (at_ 57 58 (KOther 2) [(X 57 58 (KOther 1000) [])])])])])]);
  types])])])])])]])
  [1; 28; 67]
  [(28, [" istanbul ignore next "])]
  false [].
Definition fx_statement_hints_3_tests : list test := [mkTest (LArr [(LNum (10)%Z)]) (LNum (10)%Z)
    []
    []
    []
    []
    []].

(** statement-hints.yaml: ignore before switch *)
Definition fx_statement_hints_4 : fixture := mkFixture
  (at_ 28 99 KModule [mk KModuleItems [(T 28 98 KSwitch [(X 36 43 (KOther 1) [(X 36 40 (KIdent "args") []);
  (at_ 41 42 (KOther 2) [(X 41 42 (KOther 1000) [])])]);
  (list_ [(at_ 47 75 KSwitchCase [(X 52 55 (KStr "1") []);
  (mk KStmts [(T 57 68 KExprStmt [(X 57 67 (KOther 10) [(at_ 57 63 (KIdent "output") []);
  (X 66 67 (KOther 1002) [])])]);
  (T 69 75 KBreak [none])])]);
  (at_ 76 96 KSwitchCase [none;
  (mk KStmts [(T 85 96 KExprStmt [(X 85 95 (KOther 10) [(at_ 85 91 (KIdent "output") []);
  (X 94 95 (KOther 1001) [])])])])])])])]])
  [1; 28; 47; 76; 97; 99]
  [(28, [" istanbul ignore next "])]
  false [].
Definition fx_statement_hints_4_tests : list test := [mkTest (LArr [(LStr "1")]) (LNum (2)%Z)
    []
    []
    []
    []
    []].

(** statement-hints.yaml: ignore before case *)
Definition fx_statement_hints_5 : fixture := mkFixture
  (at_ 1 99 KModule [mk KModuleItems [(T 1 98 KSwitch [(X 9 16 (KOther 1) [(X 9 13 (KIdent "args") []);
  (at_ 14 15 (KOther 2) [(X 14 15 (KOther 1000) [])])]);
  (list_ [(at_ 47 75 KSwitchCase [(X 52 55 (KStr "1") []);
  (mk KStmts [(T 57 68 KExprStmt [(X 57 67 (KOther 10) [(at_ 57 63 (KIdent "output") []);
  (X 66 67 (KOther 1002) [])])]);
  (T 69 75 KBreak [none])])]);
  (at_ 76 96 KSwitchCase [none;
  (mk KStmts [(T 85 96 KExprStmt [(X 85 95 (KOther 10) [(at_ 85 91 (KIdent "output") []);
  (X 94 95 (KOther 1001) [])])])])])])])]])
  [1; 20; 47; 76; 97; 99]
  [(47, [" istanbul ignore next "])]
  false [].
Definition fx_statement_hints_5_tests : list test := [mkTest (LArr [(LStr "2")]) (LNum (1)%Z)
    [(1, 1); (4, 1)]
    [(0, 1); (1, 1)]
    []
    [(0, [1])]
    []].

(** statement-hints.yaml: ignore before ternary statement *)
Definition fx_statement_hints_6 : fixture := mkFixture
  (at_ 28 59 KModule [mk KModuleItems [(T 28 58 KExprStmt [(X 28 57 (KOther 10) [(at_ 28 34 (KIdent "output") []);
  (X 37 57 KCond [(X 37 50 (KBin (OpOther 6)) [(X 37 44 (KOther 1) [(X 37 41 (KIdent "args") []);
  (at_ 42 43 (KOther 2) [(X 42 43 (KOther 1000) [])])]);
  (X 49 50 (KOther 1001) [])]);
  (X 53 54 (KOther 1001) []);
  (X 56 57 (KOther 1000) [])])])])]])
  [1; 28; 59]
  [(28, [" istanbul ignore next "])]
  false [].
Definition fx_statement_hints_6_tests : list test := [mkTest (LArr [(LNum (2)%Z)]) (LNum (0)%Z)
    []
    []
    []
    []
    []].

(** statement-hints.yaml: ignore before ternary condition *)
Definition fx_statement_hints_7 : fixture := mkFixture
  (at_ 1 60 KModule [mk KModuleItems [(T 1 59 KExprStmt [(X 1 58 (KOther 10) [(at_ 1 7 (KIdent "output") []);
  (X 10 58 KCond [(X 10 23 (KBin (OpOther 6)) [(X 10 17 (KOther 1) [(X 10 14 (KIdent "args") []);
  (at_ 15 16 (KOther 2) [(X 15 16 (KOther 1000) [])])]);
  (X 22 23 (KOther 1001) [])]);
  (X 53 54 (KOther 1001) []);
  (X 57 58 (KOther 1000) [])])])])]])
  [1; 60]
  [(53, [" istanbul ignore next "])]
  false [].
Definition fx_statement_hints_7_tests : list test := [mkTest (LArr [(LNum (2)%Z)]) (LNum (0)%Z)
    [(1, 1)]
    [(0, 1)]
    []
    [(0, [1])]
    []].

(** statement-hints.yaml: ignore in logical expression *)
Definition fx_statement_hints_8 : fixture := mkFixture
  (at_ 1 121 KModule [mk KModuleItems [(T 1 120 KIf [(X 5 63 (KBin OpOr) [(X 5 18 (KBin (OpOther 6)) [(X 5 12 (KOther 1) [(X 5 9 (KIdent "args") []);
  (at_ 10 11 (KOther 2) [(X 10 11 (KOther 1000) [])])]);
  (X 17 18 (KOther 1001) [])]);
  (X 50 63 (KBin (OpOther 6)) [(X 50 57 (KOther 1) [(X 50 54 (KIdent "args") []);
  (at_ 55 56 (KOther 2) [(X 55 56 (KOther 1000) [])])]);
  (X 62 63 (KOther 1002) [])])]);
  (at_ 66 95 KStmt [(block 66 95 [(T 71 93 KExprStmt [(X 71 92 (KOther 10) [(at_ 71 77 (KIdent "output") []);
  (X 80 92 (KBin (OpOther 0)) [(X 80 87 (KOther 1) [(X 80 84 (KIdent "args") []);
  (at_ 85 86 (KOther 2) [(X 85 86 (KOther 1000) [])])]);
  (X 90 92 (KOther 1010) [])])])])])]);
  (at_ 101 120 KStmt [(block 101 120 [(T 106 118 KExprStmt [(X 106 117 (KOther 10) [(at_ 106 112 (KIdent "output") []);
  (X 115 117 (KOther 1020) [])])])])])])]])
  [1; 68; 94; 103; 119; 121]
  [(50, [" istanbul ignore next "])]
  false [].
Definition fx_statement_hints_8_tests : list test := [mkTest (LArr [(LNum (1)%Z)]) (LNum (11)%Z)
    [(1, 1); (2, 1); (4, 0)]
    [(0, 1); (1, 1); (2, 0)]
    []
    [(0, [1; 0]); (1, [1])]
    []].

(** statement-hints.yaml: ignore in complex logical expression *)
Definition fx_statement_hints_9 : fixture := mkFixture
  (at_ 1 139 KModule [mk KModuleItems [(T 1 138 KIf [(X 5 82 (KBin OpOr) [(X 5 18 (KBin (OpOther 6)) [(X 5 12 (KOther 1) [(X 5 9 (KIdent "args") []);
  (at_ 10 11 (KOther 2) [(X 10 11 (KOther 1000) [])])]);
  (X 17 18 (KOther 1001) [])]);
  (X 22 82 KParen [(X 50 81 (KBin OpOr) [(X 50 63 (KBin (OpOther 6)) [(X 50 57 (KOther 1) [(X 50 54 (KIdent "args") []);
  (at_ 55 56 (KOther 2) [(X 55 56 (KOther 1000) [])])]);
  (X 62 63 (KOther 1002) [])]);
  (X 68 81 (KBin (OpOther 6)) [(X 68 75 (KOther 1) [(X 68 72 (KIdent "args") []);
  (at_ 73 74 (KOther 2) [(X 73 74 (KOther 1000) [])])]);
  (X 80 81 (KOther 1003) [])])])])]);
  (at_ 84 113 KStmt [(block 84 113 [(T 89 111 KExprStmt [(X 89 110 (KOther 10) [(at_ 89 95 (KIdent "output") []);
  (X 98 110 (KBin (OpOther 0)) [(X 98 105 (KOther 1) [(X 98 102 (KIdent "args") []);
  (at_ 103 104 (KOther 2) [(X 103 104 (KOther 1000) [])])]);
  (X 108 110 (KOther 1010) [])])])])])]);
  (at_ 119 138 KStmt [(block 119 138 [(T 124 136 KExprStmt [(X 124 135 (KOther 10) [(at_ 124 130 (KIdent "output") []);
  (X 133 135 (KOther 1020) [])])])])])])]])
  [1; 86; 112; 121; 137; 139]
  [(50, [" istanbul ignore next "])]
  false [].
Definition fx_statement_hints_9_tests : list test := [mkTest (LArr [(LNum (1)%Z)]) (LNum (11)%Z)
    [(1, 1); (2, 1); (4, 0)]
    [(0, 1); (1, 1); (2, 0)]
    []
    [(0, [1; 0]); (1, [1])]
    []].

(** statement-hints.yaml: ignore in logical expression with implied operator precedence *)
Definition fx_statement_hints_10 : fixture := mkFixture
  (at_ 1 137 KModule [mk KModuleItems [(T 1 136 KIf [(X 5 80 (KBin OpOr) [(X 5 18 (KBin (OpOther 6)) [(X 5 12 (KOther 1) [(X 5 9 (KIdent "args") []);
  (at_ 10 11 (KOther 2) [(X 10 11 (KOther 1000) [])])]);
  (X 17 18 (KOther 1001) [])]);
  (X 49 80 (KBin OpAnd) [(X 49 62 (KBin (OpOther 6)) [(X 49 56 (KOther 1) [(X 49 53 (KIdent "args") []);
  (at_ 54 55 (KOther 2) [(X 54 55 (KOther 1000) [])])]);
  (X 61 62 (KOther 1002) [])]);
  (X 67 80 (KBin (OpOther 6)) [(X 67 74 (KOther 1) [(X 67 71 (KIdent "args") []);
  (at_ 72 73 (KOther 2) [(X 72 73 (KOther 1001) [])])]);
  (X 79 80 (KOther 1002) [])])])]);
  (at_ 82 111 KStmt [(block 82 111 [(T 87 109 KExprStmt [(X 87 108 (KOther 10) [(at_ 87 93 (KIdent "output") []);
  (X 96 108 (KBin (OpOther 0)) [(X 96 103 (KOther 1) [(X 96 100 (KIdent "args") []);
  (at_ 101 102 (KOther 2) [(X 101 102 (KOther 1000) [])])]);
  (X 106 108 (KOther 1010) [])])])])])]);
  (at_ 117 136 KStmt [(block 117 136 [(T 122 134 KExprStmt [(X 122 133 (KOther 10) [(at_ 122 128 (KIdent "output") []);
  (X 131 133 (KOther 1020) [])])])])])])]])
  [1; 84; 110; 119; 135; 137]
  [(49, [" istanbul ignore next "])]
  false [].
Definition fx_statement_hints_10_tests : list test := [mkTest (LArr [(LNum (1)%Z); (LNum (1)%Z)]) (LNum (11)%Z)
    [(1, 1); (2, 1); (4, 0)]
    [(0, 1); (1, 1); (2, 0)]
    []
    [(0, [1; 0]); (1, [1])]
    []].

(** statement-hints.yaml: ignore before logical expression *)
Definition fx_statement_hints_11 : fixture := mkFixture
  (at_ 1 138 KModule [mk KModuleItems [(T 1 137 KIf [(X 32 81 (KBin OpOr) [(X 32 45 (KBin (OpOther 6)) [(X 32 39 (KOther 1) [(X 32 36 (KIdent "args") []);
  (at_ 37 38 (KOther 2) [(X 37 38 (KOther 1000) [])])]);
  (X 44 45 (KOther 1001) [])]);
  (X 50 81 (KBin OpAnd) [(X 50 63 (KBin (OpOther 6)) [(X 50 57 (KOther 1) [(X 50 54 (KIdent "args") []);
  (at_ 55 56 (KOther 2) [(X 55 56 (KOther 1000) [])])]);
  (X 62 63 (KOther 1002) [])]);
  (X 68 81 (KBin (OpOther 6)) [(X 68 75 (KOther 1) [(X 68 72 (KIdent "args") []);
  (at_ 73 74 (KOther 2) [(X 73 74 (KOther 1001) [])])]);
  (X 80 81 (KOther 1002) [])])])]);
  (at_ 83 112 KStmt [(block 83 112 [(T 88 110 KExprStmt [(X 88 109 (KOther 10) [(at_ 88 94 (KIdent "output") []);
  (X 97 109 (KBin (OpOther 0)) [(X 97 104 (KOther 1) [(X 97 101 (KIdent "args") []);
  (at_ 102 103 (KOther 2) [(X 102 103 (KOther 1000) [])])]);
  (X 107 109 (KOther 1010) [])])])])])]);
  (at_ 118 137 KStmt [(block 118 137 [(T 123 135 KExprStmt [(X 123 134 (KOther 10) [(at_ 123 129 (KIdent "output") []);
  (X 132 134 (KOther 1020) [])])])])])])]])
  [1; 85; 111; 120; 136; 138]
  [(32, [" istanbul ignore next "])]
  false [].
Definition fx_statement_hints_11_tests : list test := [mkTest (LArr [(LNum (1)%Z); (LNum (1)%Z)]) (LNum (11)%Z)
    [(1, 1); (2, 1); (4, 0)]
    [(0, 1); (1, 1); (2, 0)]
    []
    [(0, [1; 0])]
    []].

(** statement-hints.yaml: ignore class methods *)
Definition fx_statement_hints_12 : fixture := mkFixture
  (at_ 1 168 KModule [mk KModuleItems [(T 1 75 KClassDecl [(at_ 7 16 (KIdent "TestClass") []);
  (at_ 1 75 KClass [(list_ []);
  (list_ [(at_ 23 43 KClassMethod [(at_ 23 28 (KPropIdent "dummy") []);
  (at_ 23 43 KFunction [(list_ [(at_ 29 30 (KOther 49) [(at_ 29 30 (KIdent "i") [])])]);
  (list_ []);
  (block 32 43 [(T 33 42 KReturn [(X 40 41 (KIdent "i") [])])]);
  types])]);
  (at_ 48 73 KClassMethod [(at_ 48 58 (KPropIdent "nonIgnored") []);
  (at_ 48 73 KFunction [(list_ [(at_ 59 60 (KOther 49) [(at_ 59 60 (KIdent "i") [])])]);
  (list_ []);
  (block 62 73 [(T 63 72 KReturn [(X 70 71 (KIdent "i") [])])]);
  types])])]);
  none;
  types])]);
  (T 76 108 (KVarDecl VVar) [(list_ [(at_ 80 107 KVarDeclarator [(at_ 80 89 (KIdent "testClass") []);
  (X 92 107 (KOther 5) [(X 96 105 (KIdent "TestClass") [])])])])]);
  (T 109 132 KExprStmt [(X 109 131 (KOther 3) [(X 109 129 (KOther 1) [(X 109 118 (KIdent "testClass") []);
  (at_ 119 129 (KPropIdent "nonIgnored") [])])])]);
  (T 133 167 KExprStmt [(X 133 166 (KOther 10) [(at_ 133 139 (KIdent "output") []);
  (X 142 166 (KOther 3) [(X 142 157 (KOther 1) [(X 142 151 (KIdent "testClass") []);
  (at_ 152 157 (KPropIdent "dummy") [])]);
  (at_ 158 165 (KOther 4) [(X 158 165 (KOther 1) [(X 158 162 (KIdent "args") []);
  (at_ 163 164 (KOther 2) [(X 163 164 (KOther 1000) [])])])])])])])]])
  [1; 19; 44; 74; 76; 109; 133; 168]
  []
  false ["dummy"].
Definition fx_statement_hints_12_tests : list test := [mkTest (LArr [(LNum (10)%Z)]) (LNum (10)%Z)
    [(3, 1); (5, 1); (6, 1); (7, 1)]
    [(0, 1); (1, 1); (2, 1); (3, 1)]
    [(0, 1)]
    []
    []].

(** statement-hints.yaml: ignore class methods *)
Definition fx_statement_hints_13 : fixture := mkFixture
  (at_ 1 266 KModule [mk KModuleItems [(T 1 24 KFnDecl [(at_ 10 19 (KIdent "TestClass") []);
  (at_ 1 24 KFunction [(list_ []);
  (list_ []);
  (block 22 24 []);
  types])]);
  (T 25 99 KExprStmt [(X 25 98 (KOther 10) [(at_ 25 55 (KOther 1) [(X 25 44 (KOther 1) [(X 25 34 (KIdent "TestClass") []);
  (at_ 35 44 (KPropIdent "prototype") [])]);
  (at_ 45 55 (KPropIdent "testMethod") [])]);
  (X 58 98 KFnExpr [(at_ 67 77 (KIdent "testMethod") []);
  (at_ 58 98 KFunction [(list_ [(at_ 78 79 (KOther 49) [(at_ 78 79 (KIdent "i") [])])]);
  (list_ []);
  (block 81 98 [(T 87 96 KReturn [(X 94 95 (KIdent "i") [])])]);
  types])])])]);
  (T 100 168 KExprStmt [(X 100 167 (KOther 10) [(at_ 100 130 (KOther 1) [(X 100 119 (KOther 1) [(X 100 109 (KIdent "TestClass") []);
  (at_ 110 119 (KPropIdent "prototype") [])]);
  (at_ 120 130 (KPropIdent "goodMethod") [])]);
  (X 133 167 KFnExpr [(at_ 142 152 (KIdent "goodMethod") []);
  (at_ 133 167 KFunction [(list_ [(at_ 153 154 (KOther 49) [(at_ 153 154 (KIdent "i") [])])]);
  (list_ []);
  (block 156 167 [(T 157 166 KReturn [(X 164 165 (KIdent "i") [])])]);
  types])])])]);
  (T 169 201 (KVarDecl VVar) [(list_ [(at_ 173 200 KVarDeclarator [(at_ 173 182 (KIdent "testClass") []);
  (X 185 200 (KOther 5) [(X 189 198 (KIdent "TestClass") [])])])])]);
  (T 202 225 KExprStmt [(X 202 224 (KOther 3) [(X 202 222 (KOther 1) [(X 202 211 (KIdent "testClass") []);
  (at_ 212 222 (KPropIdent "goodMethod") [])])])]);
  (T 226 265 KExprStmt [(X 226 264 (KOther 10) [(at_ 226 232 (KIdent "output") []);
  (X 235 264 (KOther 3) [(X 235 255 (KOther 1) [(X 235 244 (KIdent "testClass") []);
  (at_ 245 255 (KPropIdent "testMethod") [])]);
  (at_ 256 263 (KOther 4) [(X 256 263 (KOther 1) [(X 256 260 (KIdent "args") []);
  (at_ 261 262 (KOther 2) [(X 261 262 (KOther 1000) [])])])])])])])]])
  [1; 25; 83; 97; 100; 169; 202; 226; 266]
  []
  false ["testMethod"].
Definition fx_statement_hints_13_tests : list test := [mkTest (LArr [(LNum (10)%Z)]) (LNum (10)%Z)
    [(2, 1); (5, 1); (6, 1); (7, 1); (8, 1)]
    [(0, 1); (1, 1); (2, 1); (3, 1); (4, 1); (5, 1)]
    [(0, 1); (1, 1)]
    []
    []].

(** statement.yaml: var decl no initializer *)
Definition fx_statement_1 : fixture := mkFixture
  (at_ 1 20 KModule [mk KModuleItems [(T 1 7 (KVarDecl VVar) [(list_ [(at_ 5 6 KVarDeclarator [(at_ 5 6 (KIdent "x") []);
  none])])]);
  (T 8 19 KExprStmt [(X 8 19 (KOther 10) [(at_ 8 14 (KIdent "output") []);
  (X 17 19 (KOther 1010) [])])])]])
  [1; 8; 20]
  []
  false [].
Definition fx_statement_1_tests : list test := [mkTest (LArr []) (LNum (10)%Z)
    [(2, 1)]
    [(0, 1)]
    []
    []
    []].

(** statement.yaml: simple statement *)
Definition fx_statement_2 : fixture := mkFixture
  (at_ 1 54 KModule [mk KModuleItems [(T 1 41 (KVarDecl VVar) [(list_ [(at_ 5 40 KVarDeclarator [(at_ 5 6 (KIdent "x") []);
  (X 9 40 KCond [(X 9 20 (KBin (OpOther 5)) [(X 9 16 (KOther 1) [(X 9 13 (KIdent "args") []);
  (at_ 14 15 (KOther 2) [(X 14 15 (KOther 1000) [])])]);
  (X 19 20 (KOther 1005) [])]);
  (X 23 30 (KOther 1) [(X 23 27 (KIdent "args") []);
  (at_ 28 29 (KOther 2) [(X 28 29 (KOther 1000) [])])]);
  (X 33 40 (KStr "undef") [])])])])]);
  (T 42 53 KExprStmt [(X 42 52 (KOther 10) [(at_ 42 48 (KIdent "output") []);
  (X 51 52 (KIdent "x") [])])])]])
  [1; 42; 54]
  []
  false [].
Definition fx_statement_2_tests : list test := [mkTest (LArr [(LNum (10)%Z)]) (LNum (10)%Z)
    [(1, 1); (2, 1)]
    [(0, 1); (1, 1)]
    []
    [(0, [1; 0])]
    []; mkTest (LArr [(LNum (1)%Z)]) (LStr "undef")
    [(1, 1); (2, 1)]
    [(0, 1); (1, 1)]
    []
    [(0, [0; 1])]
    []].

(** statement.yaml: shebang code *)
Definition fx_statement_3 : fixture := mkFixture
  (at_ 21 74 KModule [mk KModuleItems [(T 21 61 (KVarDecl VVar) [(list_ [(at_ 25 60 KVarDeclarator [(at_ 25 26 (KIdent "x") []);
  (X 29 60 KCond [(X 29 40 (KBin (OpOther 5)) [(X 29 36 (KOther 1) [(X 29 33 (KIdent "args") []);
  (at_ 34 35 (KOther 2) [(X 34 35 (KOther 1000) [])])]);
  (X 39 40 (KOther 1005) [])]);
  (X 43 50 (KOther 1) [(X 43 47 (KIdent "args") []);
  (at_ 48 49 (KOther 2) [(X 48 49 (KOther 1000) [])])]);
  (X 53 60 (KStr "undef") [])])])])]);
  (T 62 73 KExprStmt [(X 62 72 (KOther 10) [(at_ 62 68 (KIdent "output") []);
  (X 71 72 (KIdent "x") [])])])]])
  [1; 21; 62; 74]
  []
  false [].
Definition fx_statement_3_tests : list test := [].

(** switch.yaml: empty switch *)
Definition fx_switch_1 : fixture := mkFixture
  (at_ 1 42 KModule [mk KModuleItems [(T 1 20 KExprStmt [(X 1 19 (KOther 10) [(at_ 1 7 (KIdent "output") []);
  (X 10 19 (KStr "unknown") [])])]);
  (T 21 41 KSwitch [(X 29 36 (KOther 1) [(X 29 33 (KIdent "args") []);
  (at_ 34 35 (KOther 2) [(X 34 35 (KOther 1000) [])])]);
  (list_ [])])]])
  [1; 21; 40; 42]
  []
  false [].
Definition fx_switch_1_tests : list test := [mkTest (LArr [(LStr "1")]) (LStr "unknown")
    [(1, 1); (2, 1)]
    [(0, 1); (1, 1)]
    []
    []
    []].

(** switch.yaml: 2 cases no default *)
Definition fx_switch_2 : fixture := mkFixture
  (at_ 1 114 KModule [mk KModuleItems [(T 1 20 KExprStmt [(X 1 19 (KOther 10) [(at_ 1 7 (KIdent "output") []);
  (X 10 19 (KStr "unknown") [])])]);
  (T 21 113 KSwitch [(X 29 36 (KOther 1) [(X 29 33 (KIdent "args") []);
  (at_ 34 35 (KOther 2) [(X 34 35 (KOther 1000) [])])]);
  (list_ [(at_ 43 75 KSwitchCase [(X 48 51 (KStr "1") []);
  (mk KStmts [(T 53 68 KExprStmt [(X 53 67 (KOther 10) [(at_ 53 59 (KIdent "output") []);
  (X 62 67 (KStr "one") [])])]);
  (T 69 75 KBreak [none])])]);
  (at_ 79 111 KSwitchCase [(X 84 87 (KStr "2") []);
  (mk KStmts [(T 89 104 KExprStmt [(X 89 103 (KOther 10) [(at_ 89 95 (KIdent "output") []);
  (X 98 103 (KStr "two") [])])]);
  (T 105 111 KBreak [none])])])])])]])
  [1; 21; 40; 76; 112; 114]
  []
  false [].
Definition fx_switch_2_tests : list test := [mkTest (LArr [(LStr "1")]) (LStr "one")
    [(1, 1); (2, 1); (3, 1); (4, 0)]
    [(0, 1); (1, 1); (2, 1); (3, 1); (4, 0); (5, 0)]
    []
    [(0, [1; 0])]
    []; mkTest (LArr [(LStr "2")]) (LStr "two")
    [(1, 1); (2, 1); (3, 0); (4, 1)]
    [(0, 1); (1, 1); (2, 0); (3, 0); (4, 1); (5, 1)]
    []
    [(0, [0; 1])]
    []; mkTest (LArr [(LStr "3")]) (LStr "unknown")
    [(1, 1); (2, 1); (3, 0); (4, 0)]
    [(0, 1); (1, 1); (2, 0); (3, 0); (4, 0); (5, 0)]
    []
    [(0, [0; 0])]
    []].

(** switch.yaml: 2 cases with default *)
Definition fx_switch_3 : fixture := mkFixture
  (at_ 1 144 KModule [mk KModuleItems [(T 1 20 KExprStmt [(X 1 19 (KOther 10) [(at_ 1 7 (KIdent "output") []);
  (X 10 19 (KStr "unknown") [])])]);
  (T 21 143 KSwitch [(X 29 36 (KOther 1) [(X 29 33 (KIdent "args") []);
  (at_ 34 35 (KOther 2) [(X 34 35 (KOther 1000) [])])]);
  (list_ [(at_ 43 75 KSwitchCase [(X 48 51 (KStr "1") []);
  (mk KStmts [(T 53 68 KExprStmt [(X 53 67 (KOther 10) [(at_ 53 59 (KIdent "output") []);
  (X 62 67 (KStr "one") [])])]);
  (T 69 75 KBreak [none])])]);
  (at_ 79 111 KSwitchCase [(X 84 87 (KStr "2") []);
  (mk KStmts [(T 89 104 KExprStmt [(X 89 103 (KOther 10) [(at_ 89 95 (KIdent "output") []);
  (X 98 103 (KStr "two") [])])]);
  (T 105 111 KBreak [none])])]);
  (at_ 115 141 KSwitchCase [none;
  (mk KStmts [(T 124 141 KExprStmt [(X 124 140 (KOther 10) [(at_ 124 130 (KIdent "output") []);
  (X 133 140 (KStr "three") [])])])])])])])]])
  [1; 21; 40; 76; 112; 142; 144]
  []
  false [].
Definition fx_switch_3_tests : list test := [mkTest (LArr [(LStr "1")]) (LStr "one")
    [(1, 1); (2, 1); (3, 1); (4, 0); (5, 0)]
    [(0, 1); (1, 1); (2, 1); (3, 1); (4, 0); (5, 0); (6, 0)]
    []
    [(0, [1; 0; 0])]
    []; mkTest (LArr [(LStr "2")]) (LStr "two")
    [(1, 1); (2, 1); (3, 0); (4, 1); (5, 0)]
    [(0, 1); (1, 1); (2, 0); (3, 0); (4, 1); (5, 1); (6, 0)]
    []
    [(0, [0; 1; 0])]
    []; mkTest (LArr [(LStr "4")]) (LStr "three")
    [(1, 1); (2, 1); (3, 0); (4, 0); (5, 1)]
    [(0, 1); (1, 1); (2, 0); (3, 0); (4, 0); (5, 0); (6, 1)]
    []
    [(0, [0; 0; 1])]
    []].

(** switch.yaml: one line layout *)
Definition fx_switch_4 : fixture := mkFixture
  (at_ 1 134 KModule [mk KModuleItems [(T 1 20 KExprStmt [(X 1 19 (KOther 10) [(at_ 1 7 (KIdent "output") []);
  (X 10 19 (KStr "unknown") [])])]);
  (T 21 133 KSwitch [(X 29 36 (KOther 1) [(X 29 33 (KIdent "args") []);
  (at_ 34 35 (KOther 2) [(X 34 35 (KOther 1000) [])])]);
  (list_ [(at_ 40 72 KSwitchCase [(X 45 48 (KStr "1") []);
  (mk KStmts [(T 50 65 KExprStmt [(X 50 64 (KOther 10) [(at_ 50 56 (KIdent "output") []);
  (X 59 64 (KStr "one") [])])]);
  (T 66 72 KBreak [none])])]);
  (at_ 73 105 KSwitchCase [(X 78 81 (KStr "2") []);
  (mk KStmts [(T 83 98 KExprStmt [(X 83 97 (KOther 10) [(at_ 83 89 (KIdent "output") []);
  (X 92 97 (KStr "two") [])])]);
  (T 99 105 KBreak [none])])]);
  (at_ 106 132 KSwitchCase [none;
  (mk KStmts [(T 115 132 KExprStmt [(X 115 131 (KOther 10) [(at_ 115 121 (KIdent "output") []);
  (X 124 131 (KStr "three") [])])])])])])])]])
  [1; 21; 134]
  []
  false [].
Definition fx_switch_4_tests : list test := [mkTest (LArr [(LStr "1")]) (LStr "one")
    [(1, 1); (2, 1)]
    [(0, 1); (1, 1); (2, 1); (3, 1); (4, 0); (5, 0); (6, 0)]
    []
    [(0, [1; 0; 0])]
    []; mkTest (LArr [(LStr "2")]) (LStr "two")
    [(1, 1); (2, 1)]
    [(0, 1); (1, 1); (2, 0); (3, 0); (4, 1); (5, 1); (6, 0)]
    []
    [(0, [0; 1; 0])]
    []; mkTest (LArr [(LStr "4")]) (LStr "three")
    [(1, 1); (2, 1)]
    [(0, 1); (1, 1); (2, 0); (3, 0); (4, 0); (5, 0); (6, 1)]
    []
    [(0, [0; 0; 1])]
    []].

(** switch.yaml: 2 cases with default and fallthru *)
Definition fx_switch_5 : fixture := mkFixture
  (at_ 1 126 KModule [mk KModuleItems [(T 1 13 KExprStmt [(X 1 12 (KOther 10) [(at_ 1 7 (KIdent "output") []);
  (X 10 12 (KStr "") [])])]);
  (T 14 125 KSwitch [(X 22 29 (KOther 1) [(X 22 26 (KIdent "args") []);
  (at_ 27 28 (KOther 2) [(X 27 28 (KOther 1000) [])])]);
  (list_ [(at_ 36 62 KSwitchCase [(X 41 44 (KStr "1") []);
  (mk KStmts [(T 46 62 KExprStmt [(X 46 61 (KOther 11) [(at_ 46 52 (KIdent "output") []);
  (X 56 61 (KStr "one") [])])])])]);
  (at_ 66 92 KSwitchCase [(X 71 74 (KStr "2") []);
  (mk KStmts [(T 76 92 KExprStmt [(X 76 91 (KOther 11) [(at_ 76 82 (KIdent "output") []);
  (X 86 91 (KStr "two") [])])])])]);
  (at_ 96 123 KSwitchCase [none;
  (mk KStmts [(T 105 123 KExprStmt [(X 105 122 (KOther 11) [(at_ 105 111 (KIdent "output") []);
  (X 115 122 (KStr "three") [])])])])])])])]])
  [1; 14; 33; 63; 93; 124; 126]
  []
  false [].
Definition fx_switch_5_tests : list test := [mkTest (LArr [(LStr "1")]) (LStr "onetwothree")
    [(1, 1); (2, 1); (3, 1); (4, 1); (5, 1)]
    [(0, 1); (1, 1); (2, 1); (3, 1); (4, 1)]
    []
    [(0, [1; 1; 1])]
    []; mkTest (LArr [(LStr "2")]) (LStr "twothree")
    [(1, 1); (2, 1); (3, 0); (4, 1); (5, 1)]
    [(0, 1); (1, 1); (2, 0); (3, 1); (4, 1)]
    []
    [(0, [0; 1; 1])]
    []; mkTest (LArr [(LStr "4")]) (LStr "three")
    [(1, 1); (2, 1); (3, 0); (4, 0); (5, 1)]
    [(0, 1); (1, 1); (2, 0); (3, 0); (4, 1)]
    []
    [(0, [0; 0; 1])]
    []].

(** switch.yaml: one-line layout with fallthru *)
Definition fx_switch_6 : fixture := mkFixture
  (at_ 1 116 KModule [mk KModuleItems [(T 1 13 KExprStmt [(X 1 12 (KOther 10) [(at_ 1 7 (KIdent "output") []);
  (X 10 12 (KStr "") [])])]);
  (T 14 115 KSwitch [(X 22 29 (KOther 1) [(X 22 26 (KIdent "args") []);
  (at_ 27 28 (KOther 2) [(X 27 28 (KOther 1000) [])])]);
  (list_ [(at_ 33 59 KSwitchCase [(X 38 41 (KStr "1") []);
  (mk KStmts [(T 43 59 KExprStmt [(X 43 58 (KOther 11) [(at_ 43 49 (KIdent "output") []);
  (X 53 58 (KStr "one") [])])])])]);
  (at_ 60 86 KSwitchCase [(X 65 68 (KStr "2") []);
  (mk KStmts [(T 70 86 KExprStmt [(X 70 85 (KOther 11) [(at_ 70 76 (KIdent "output") []);
  (X 80 85 (KStr "two") [])])])])]);
  (at_ 87 114 KSwitchCase [none;
  (mk KStmts [(T 96 114 KExprStmt [(X 96 113 (KOther 11) [(at_ 96 102 (KIdent "output") []);
  (X 106 113 (KStr "three") [])])])])])])])]])
  [1; 14; 116]
  []
  false [].
Definition fx_switch_6_tests : list test := [mkTest (LArr [(LStr "1")]) (LStr "onetwothree")
    [(1, 1); (2, 1)]
    [(0, 1); (1, 1); (2, 1); (3, 1); (4, 1)]
    []
    [(0, [1; 1; 1])]
    []; mkTest (LArr [(LStr "2")]) (LStr "twothree")
    [(1, 1); (2, 1)]
    [(0, 1); (1, 1); (2, 0); (3, 1); (4, 1)]
    []
    [(0, [0; 1; 1])]
    []; mkTest (LArr [(LStr "4")]) (LStr "three")
    [(1, 1); (2, 1)]
    [(0, 1); (1, 1); (2, 0); (3, 0); (4, 1)]
    []
    [(0, [0; 0; 1])]
    []].

(** switch.yaml: switch with ignore next (https://github.com/istanbuljs/istanbuljs/issues/64) *)
Definition fx_switch_7 : fixture := mkFixture
  (at_ 1 349 KModule [mk KModuleItems [(T 1 13 KExprStmt [(X 1 13 (KStr "use strict") [])]);
  (T 15 317 (KVarDecl VConst) [(list_ [(at_ 21 317 KVarDeclarator [(at_ 21 25 (KIdent "test") []);
  (X 28 317 KArrow [(list_ [(at_ 28 31 (KIdent "foo") [])]);
  (block 35 317 [(T 39 315 KSwitch [(X 47 50 (KIdent "foo") []);
  (list_ [(at_ 202 236 KSwitchCase [(X 207 211 (KStr "ok") []);
  (mk KStmts [(T 219 236 KReturn [(X 226 236 (KOther 3) [(X 226 234 (KOther 1) [(X 226 230 (KIdent "Date") []);
  (at_ 231 234 (KPropIdent "now") [])])])])])]);
  (at_ 273 311 KSwitchCase [none;
  (mk KStmts [(T 288 311 KThrow [(X 294 311 (KOther 5) [(X 298 303 (KIdent "Error") []);
  (at_ 304 310 (KOther 4) [(X 304 310 (KStr "nope") [])])])])])])])])]);
  types])])])]);
  (T 319 329 KExprStmt [(X 319 329 (KOther 3) [(X 319 323 (KIdent "test") []);
  (at_ 324 328 (KOther 4) [(X 324 328 (KStr "ok") [])])])]);
  (T 330 348 KExprStmt [(X 330 348 (KOther 10) [(at_ 330 336 (KIdent "output") []);
  (X 339 348 (KStr "unknown") [])])])]])
  [1; 14; 15; 37; 54; 101; 150; 198; 213; 237; 238; 269; 282; 312; 316; 318; 319; 330; 349]
  [(202, [" the bug discussed in #64, seems to only"; " crop up when a function is invoked before"; " a single line comment, hence Date.now()."]); (273, [" istanbul ignore next "])]
  false [].
Definition fx_switch_7_tests : list test := [mkTest (LArr []) (LStr "unknown")
    [(3, 1); (4, 1); (9, 1); (17, 1); (18, 1)]
    [(0, 1); (1, 1); (2, 1); (3, 1); (4, 1)]
    [(0, 1)]
    [(0, [1])]
    []].

(** tenary.yaml: ternary operator *)
Definition fx_tenary_1 : fixture := mkFixture
  (at_ 1 93 KModule [mk KModuleItems [(T 1 17 (KVarDecl VVar) [(list_ [(at_ 5 16 KVarDeclarator [(at_ 5 6 (KIdent "x") []);
  (X 9 16 (KOther 1) [(X 9 13 (KIdent "args") []);
  (at_ 14 15 (KOther 2) [(X 14 15 (KOther 1000) [])])])])])]);
  (T 18 34 (KVarDecl VVar) [(list_ [(at_ 22 33 KVarDeclarator [(at_ 22 23 (KIdent "y") []);
  (X 26 33 (KOther 1) [(X 26 30 (KIdent "args") []);
  (at_ 31 32 (KOther 2) [(X 31 32 (KOther 1001) [])])])])])]);
  (T 35 76 KFnDecl [(at_ 44 47 (KIdent "foo") []);
  (at_ 35 76 KFunction [(list_ []);
  (list_ []);
  (block 50 76 [(T 54 74 KReturn [(X 61 74 KCond [(X 61 66 (KBin (OpOther 5)) [(X 61 62 (KIdent "x") []);
  (X 65 66 (KIdent "y") [])]);
  (X 69 70 (KIdent "x") []);
  (X 73 74 (KIdent "y") [])])])]);
  types])]);
  (T 77 92 KExprStmt [(X 77 91 (KOther 10) [(at_ 77 83 (KIdent "output") []);
  (X 86 91 (KOther 3) [(X 86 89 (KIdent "foo") [])])])])]])
  [1; 18; 35; 52; 75; 77; 93]
  []
  false [].
Definition fx_tenary_1_tests : list test := [mkTest (LArr [(LNum (20)%Z); (LNum (10)%Z)]) (LNum (20)%Z)
    [(1, 1); (2, 1); (4, 1); (6, 1)]
    [(0, 1); (1, 1); (2, 1); (3, 1)]
    [(0, 1)]
    [(0, [1; 0])]
    []; mkTest (LArr [(LNum (10)%Z); (LNum (20)%Z)]) (LNum (20)%Z)
    [(1, 1); (2, 1); (4, 1); (6, 1)]
    [(0, 1); (1, 1); (2, 1); (3, 1)]
    [(0, 1)]
    [(0, [0; 1])]
    []].

(** truthy.yaml: simple expression *)
Definition fx_truthy_1 : fixture := mkFixture
  (at_ 1 49 KModule [mk KModuleItems [(T 1 36 (KVarDecl VVar) [(list_ [(at_ 5 35 KVarDeclarator [(at_ 5 6 (KIdent "x") []);
  (X 9 35 (KBin OpAnd) [(X 9 20 (KBin (OpOther 5)) [(X 9 16 (KOther 1) [(X 9 13 (KIdent "args") []);
  (at_ 14 15 (KOther 2) [(X 14 15 (KOther 1000) [])])]);
  (X 19 20 (KOther 1000) [])]);
  (X 24 35 (KBin (OpOther 4)) [(X 24 31 (KOther 1) [(X 24 28 (KIdent "args") []);
  (at_ 29 30 (KOther 2) [(X 29 30 (KOther 1000) [])])]);
  (X 34 35 (KOther 1005) [])])])])])]);
  (T 37 48 KExprStmt [(X 37 47 (KOther 10) [(at_ 37 43 (KIdent "output") []);
  (X 46 47 (KIdent "x") [])])])]])
  [1; 37; 49]
  []
  true [].
Definition fx_truthy_1_tests : list test := [mkTest (LArr [(LNum (-1)%Z)]) (LBool false)
    [(1, 1); (2, 1)]
    [(0, 1); (1, 1)]
    []
    [(0, [1; 0])]
    [(0, [0; 0])]; mkTest (LArr [(LNum (10)%Z)]) (LBool false)
    [(1, 1); (2, 1)]
    [(0, 1); (1, 1)]
    []
    [(0, [1; 1])]
    [(0, [1; 0])]].

(** truthy.yaml: complex expression *)
Definition fx_truthy_2 : fixture := mkFixture
  (at_ 1 67 KModule [mk KModuleItems [(T 1 54 (KVarDecl VVar) [(list_ [(at_ 5 53 KVarDeclarator [(at_ 5 6 (KIdent "x") []);
  (X 9 53 (KBin OpAnd) [(X 9 20 (KBin (OpOther 5)) [(X 9 16 (KOther 1) [(X 9 13 (KIdent "args") []);
  (at_ 14 15 (KOther 2) [(X 14 15 (KOther 1000) [])])]);
  (X 19 20 (KOther 1000) [])]);
  (X 24 53 KParen [(X 25 52 (KBin OpOr) [(X 25 36 (KBin (OpOther 4)) [(X 25 32 (KOther 1) [(X 25 29 (KIdent "args") []);
  (at_ 30 31 (KOther 2) [(X 30 31 (KOther 1000) [])])]);
  (X 35 36 (KOther 1005) [])]);
  (X 40 52 (KBin (OpOther 5)) [(X 40 47 (KOther 1) [(X 40 44 (KIdent "args") []);
  (at_ 45 46 (KOther 2) [(X 45 46 (KOther 1000) [])])]);
  (X 50 52 (KOther 1010) [])])])])])])])]);
  (T 55 66 KExprStmt [(X 55 65 (KOther 10) [(at_ 55 61 (KIdent "output") []);
  (X 64 65 (KIdent "x") [])])])]])
  [1; 55; 67]
  []
  true [].
Definition fx_truthy_2_tests : list test := [mkTest (LArr [(LNum (-1)%Z)]) (LBool false)
    [(1, 1); (2, 1)]
    [(0, 1); (1, 1)]
    []
    [(0, [1; 0; 0])]
    [(0, [0; 0; 0])]; mkTest (LArr [(LNum (9)%Z)]) (LBool false)
    [(1, 1); (2, 1)]
    [(0, 1); (1, 1)]
    []
    [(0, [1; 1; 1])]
    [(0, [1; 0; 0])]].

(** truthy.yaml: or with object expression (bug track) *)
Definition fx_truthy_3 : fixture := mkFixture
  (at_ 1 60 KModule [mk KModuleItems [(T 1 43 (KVarDecl VVar) [(list_ [(at_ 5 42 KVarDeclarator [(at_ 5 6 (KIdent "x") []);
  (X 9 42 KCond [(X 9 16 (KOther 1) [(X 9 13 (KIdent "args") []);
  (at_ 14 15 (KOther 2) [(X 14 15 (KOther 1000) [])])]);
  (X 19 29 (KOther 41) [(at_ 21 27 (KOther 42) [(at_ 21 24 (KPropIdent "foo") []);
  (X 26 27 (KOther 1001) [])])]);
  (X 32 42 (KOther 41) [(at_ 34 40 (KOther 42) [(at_ 34 37 (KPropIdent "foo") []);
  (X 39 40 (KOther 1002) [])])])])])])]);
  (T 44 59 KExprStmt [(X 44 58 (KOther 10) [(at_ 44 50 (KIdent "output") []);
  (X 53 58 (KOther 1) [(X 53 54 (KIdent "x") []);
  (at_ 55 58 (KPropIdent "foo") [])])])])]])
  [1; 44; 60]
  []
  true [].
Definition fx_truthy_3_tests : list test := [mkTest (LArr [(LBool false)]) (LNum (2)%Z)
    [(1, 1); (2, 1)]
    [(0, 1); (1, 1)]
    []
    [(0, [0; 1])]
    []].

(** truthy.yaml: or with object expression (part 2) *)
Definition fx_truthy_4 : fixture := mkFixture
  (at_ 1 48 KModule [mk KModuleItems [(T 1 31 (KVarDecl VVar) [(list_ [(at_ 5 30 KVarDeclarator [(at_ 5 6 (KIdent "x") []);
  (X 9 30 (KBin OpOr) [(X 9 16 (KOther 1) [(X 9 13 (KIdent "args") []);
  (at_ 14 15 (KOther 2) [(X 14 15 (KOther 1000) [])])]);
  (X 20 30 (KOther 41) [(at_ 22 28 (KOther 42) [(at_ 22 25 (KPropIdent "foo") []);
  (X 27 28 (KOther 1002) [])])])])])])]);
  (T 32 47 KExprStmt [(X 32 46 (KOther 10) [(at_ 32 38 (KIdent "output") []);
  (X 41 46 (KOther 1) [(X 41 42 (KIdent "x") []);
  (at_ 43 46 (KPropIdent "foo") [])])])])]])
  [1; 32; 48]
  []
  true [].
Definition fx_truthy_4_tests : list test := [mkTest (LArr [(LBool false)]) (LNum (2)%Z)
    [(1, 1); (2, 1)]
    [(0, 1); (1, 1)]
    []
    [(0, [1; 1])]
    [(0, [0; 1])]].

(** truthy.yaml: function evaluation *)
Definition fx_truthy_5 : fixture := mkFixture
  (at_ 1 69 KModule [mk KModuleItems [(T 1 35 (KVarDecl VLet) [(list_ [(at_ 5 34 KVarDeclarator [(at_ 5 6 (KIdent "f") []);
  (X 9 34 KFnExpr [none;
  (at_ 9 34 KFunction [(list_ []);
  (list_ []);
  (block 20 34 [(T 22 32 KReturn [(X 29 31 (KOther 1042) [])])]);
  types])])])])]);
  (T 36 56 (KVarDecl VVar) [(list_ [(at_ 40 55 KVarDeclarator [(at_ 40 41 (KIdent "x") []);
  (X 44 55 (KBin OpOr) [(X 44 48 (KIdent "args") []);
  (X 52 55 (KOther 3) [(X 52 53 (KIdent "f") [])])])])])]);
  (T 57 68 KExprStmt [(X 57 67 (KOther 10) [(at_ 57 63 (KIdent "output") []);
  (X 66 67 (KIdent "x") [])])])]])
  [1; 36; 57; 69]
  []
  true [].
Definition fx_truthy_5_tests : list test := [mkTest (LBool false) (LNum (42)%Z)
    [(1, 1); (2, 1); (3, 1)]
    [(0, 1); (1, 1); (2, 1); (3, 1)]
    [(0, 1)]
    [(0, [1; 1])]
    [(0, [0; 1])]].

(** truthy.yaml: async *)
Definition fx_truthy_6 : fixture := mkFixture
  (at_ 1 51 KModule [mk KModuleItems [(T 1 34 (KVarDecl VVar) [(list_ [(at_ 5 33 KVarDeclarator [(at_ 5 6 (KIdent "x") []);
  (X 9 33 (KBin OpOr) [(X 9 16 (KOther 1) [(X 9 13 (KIdent "args") []);
  (at_ 14 15 (KOther 2) [(X 14 15 (KOther 1000) [])])]);
  (X 20 33 (KOther 46) [(X 26 33 (KOther 1) [(X 26 30 (KIdent "args") []);
  (at_ 31 32 (KOther 2) [(X 31 32 (KOther 1001) [])])])])])])])]);
  (T 35 50 KExprStmt [(X 35 49 (KOther 10) [(at_ 35 41 (KIdent "output") []);
  (X 44 49 (KOther 1) [(X 44 45 (KIdent "x") []);
  (at_ 46 49 (KPropIdent "foo") [])])])])]])
  [1; 35; 51]
  []
  true [].
Definition fx_truthy_6_tests : list test := [mkTest (LArr [(LBool false); (LObj [("foo", (LNum (2)%Z))])]) (LNum (2)%Z)
    [(1, 1); (2, 1)]
    [(0, 1); (1, 1)]
    []
    [(0, [1; 1])]
    [(0, [0; 1])]].

(** truthy.yaml: mutate and evaluate at the same time *)
Definition fx_truthy_7 : fixture := mkFixture
  (at_ 1 49 KModule [mk KModuleItems [(T 1 30 (KVarDecl VVar) [(list_ [(at_ 5 29 KVarDeclarator [(at_ 5 6 (KIdent "x") []);
  (X 9 29 (KBin OpOr) [(X 9 18 (KOther 20) [(X 9 16 (KOther 1) [(X 9 13 (KIdent "args") []);
  (at_ 14 15 (KOther 2) [(X 14 15 (KOther 1000) [])])])]);
  (X 22 29 (KOther 1) [(X 22 26 (KIdent "args") []);
  (at_ 27 28 (KOther 2) [(X 27 28 (KOther 1001) [])])])])])])]);
  (T 31 48 KExprStmt [(X 31 47 (KOther 10) [(at_ 31 37 (KIdent "output") []);
  (X 40 47 (KOther 1) [(X 40 44 (KIdent "args") []);
  (at_ 45 46 (KOther 2) [(X 45 46 (KOther 1000) [])])])])])]])
  [1; 31; 49]
  []
  true [].
Definition fx_truthy_7_tests : list test := [mkTest (LArr [(LNum (0)%Z); (LObj [("foo", (LNum (2)%Z))])]) (LNum (1)%Z)
    [(1, 1); (2, 1)]
    [(0, 1); (1, 1)]
    []
    [(0, [1; 1])]
    [(0, [0; 1])]].

(** truthy.yaml: empty object *)
Definition fx_truthy_8 : fixture := mkFixture
  (at_ 1 40 KModule [mk KModuleItems [(T 1 24 (KVarDecl VVar) [(list_ [(at_ 5 23 KVarDeclarator [(at_ 5 6 (KIdent "x") []);
  (X 9 23 (KBin OpOr) [(X 9 16 (KOther 1) [(X 9 13 (KIdent "args") []);
  (at_ 14 15 (KOther 2) [(X 14 15 (KOther 1000) [])])]);
  (X 20 23 (KOther 41) [])])])])]);
  (T 25 39 KExprStmt [(X 25 38 (KOther 10) [(at_ 25 31 (KIdent "output") []);
  (X 34 38 (KOther 52) [])])])]])
  [1; 25; 40]
  []
  true [].
Definition fx_truthy_8_tests : list test := [mkTest (LArr [(LBool false)]) (LBool true)
    [(1, 1); (2, 1)]
    [(0, 1); (1, 1)]
    []
    [(0, [1; 1])]
    [(0, [0; 0])]].

(** truthy.yaml: empty array *)
Definition fx_truthy_9 : fixture := mkFixture
  (at_ 1 39 KModule [mk KModuleItems [(T 1 23 (KVarDecl VVar) [(list_ [(at_ 5 22 KVarDeclarator [(at_ 5 6 (KIdent "x") []);
  (X 9 22 (KBin OpOr) [(X 9 16 (KOther 1) [(X 9 13 (KIdent "args") []);
  (at_ 14 15 (KOther 2) [(X 14 15 (KOther 1000) [])])]);
  (X 20 22 (KOther 40) [])])])])]);
  (T 24 38 KExprStmt [(X 24 37 (KOther 10) [(at_ 24 30 (KIdent "output") []);
  (X 33 37 (KOther 52) [])])])]])
  [1; 24; 39]
  []
  true [].
Definition fx_truthy_9_tests : list test := [mkTest (LArr [(LBool false)]) (LBool true)
    [(1, 1); (2, 1)]
    [(0, 1); (1, 1)]
    []
    [(0, [1; 1])]
    [(0, [0; 0])]].

(** try.yaml: simple try/catch *)
Definition fx_try_1 : fixture := mkFixture
  (at_ 1 129 KModule [mk KModuleItems [(T 1 128 KTry [(block 5 70 [(T 10 47 KIf [(X 14 29 (KBin (OpOther 6)) [(X 14 21 (KOther 1) [(X 14 18 (KIdent "args") []);
  (at_ 19 20 (KOther 2) [(X 19 20 (KOther 1000) [])])]);
  (X 26 29 (KStr "X") [])]);
  (at_ 31 47 KStmt [(block 31 47 [(T 33 45 KThrow [(X 39 44 (KStr "foo") [])])])]);
  none]);
  (T 51 68 KExprStmt [(X 51 67 (KOther 10) [(at_ 51 57 (KIdent "output") []);
  (X 60 67 (KOther 1) [(X 60 64 (KIdent "args") []);
  (at_ 65 66 (KOther 2) [(X 65 66 (KOther 1000) [])])])])])]);
  (at_ 71 100 (KOther 50) [(at_ 78 80 (KIdent "ex") []);
  (block 82 100 [(T 87 98 KExprStmt [(X 87 97 (KOther 10) [(at_ 87 93 (KIdent "output") []);
  (X 94 97 (KStr "Y") [])])])])]);
  (block 109 128 [(T 114 126 KExprStmt [(X 114 125 (KOther 11) [(at_ 114 120 (KIdent "output") []);
  (X 124 125 (KOther 1001) [])])])])])]])
  [1; 7; 48; 69; 84; 99; 111; 127; 129]
  []
  false [].
Definition fx_try_1_tests : list test := [mkTest (LArr [(LNum (1)%Z)]) (LNum (2)%Z)
    [(1, 1); (2, 1); (3, 1); (5, 0); (7, 1)]
    [(0, 1); (1, 1); (2, 0); (3, 1); (4, 0); (5, 1)]
    []
    [(0, [0; 1])]
    []; mkTest (LArr [(LStr "X")]) (LStr "Y1")
    [(1, 1); (2, 1); (3, 0); (5, 1); (7, 1)]
    [(0, 1); (1, 1); (2, 1); (3, 0); (4, 1); (5, 1)]
    []
    [(0, [1; 0])]
    []].

(** try.yaml: optional catch binding *)
Definition fx_try_2 : fixture := mkFixture
  (at_ 1 124 KModule [mk KModuleItems [(T 1 123 KTry [(block 5 70 [(T 10 47 KIf [(X 14 29 (KBin (OpOther 6)) [(X 14 21 (KOther 1) [(X 14 18 (KIdent "args") []);
  (at_ 19 20 (KOther 2) [(X 19 20 (KOther 1000) [])])]);
  (X 26 29 (KStr "X") [])]);
  (at_ 31 47 KStmt [(block 31 47 [(T 33 45 KThrow [(X 39 44 (KStr "foo") [])])])]);
  none]);
  (T 51 68 KExprStmt [(X 51 67 (KOther 10) [(at_ 51 57 (KIdent "output") []);
  (X 60 67 (KOther 1) [(X 60 64 (KIdent "args") []);
  (at_ 65 66 (KOther 2) [(X 65 66 (KOther 1000) [])])])])])]);
  (at_ 71 95 (KOther 50) [none;
  (block 77 95 [(T 82 93 KExprStmt [(X 82 92 (KOther 10) [(at_ 82 88 (KIdent "output") []);
  (X 89 92 (KStr "Y") [])])])])]);
  (block 104 123 [(T 109 121 KExprStmt [(X 109 120 (KOther 11) [(at_ 109 115 (KIdent "output") []);
  (X 119 120 (KOther 1001) [])])])])])]])
  [1; 7; 48; 69; 79; 94; 106; 122; 124]
  []
  false [].
Definition fx_try_2_tests : list test := [mkTest (LArr [(LNum (1)%Z)]) (LNum (2)%Z)
    [(1, 1); (2, 1); (3, 1); (5, 0); (7, 1)]
    [(0, 1); (1, 1); (2, 0); (3, 1); (4, 0); (5, 1)]
    []
    [(0, [0; 1])]
    []; mkTest (LArr [(LStr "X")]) (LStr "Y1")
    [(1, 1); (2, 1); (3, 0); (5, 1); (7, 1)]
    [(0, 1); (1, 1); (2, 1); (3, 0); (4, 1); (5, 1)]
    []
    [(0, [1; 0])]
    []].

(** while.yaml: simple while *)
Definition fx_while_1 : fixture := mkFixture
  (at_ 1 54 KModule [mk KModuleItems [(T 1 22 (KVarDecl VVar) [(list_ [(at_ 5 16 KVarDeclarator [(at_ 5 6 (KIdent "x") []);
  (X 9 16 (KOther 1) [(X 9 13 (KIdent "args") []);
  (at_ 14 15 (KOther 2) [(X 14 15 (KOther 1000) [])])])]);
  (at_ 18 21 KVarDeclarator [(at_ 18 19 (KIdent "i") []);
  (X 20 21 (KOther 1000) [])])])]);
  (T 23 41 KWhile [(X 30 35 (KBin (OpOther 4)) [(X 30 31 (KIdent "i") []);
  (X 34 35 (KIdent "x") [])]);
  (T 37 41 KExprStmt [(X 37 40 (KOther 20) [(X 37 38 (KIdent "i") [])])])]);
  (T 42 53 KExprStmt [(X 42 52 (KOther 10) [(at_ 42 48 (KIdent "output") []);
  (X 51 52 (KIdent "i") [])])])]])
  [1; 23; 42; 54]
  []
  false [].
Definition fx_while_1_tests : list test := [mkTest (LArr [(LNum (1)%Z)]) (LNum (1)%Z)
    [(1, 1); (2, 1); (3, 1)]
    [(0, 1); (1, 1); (2, 1); (3, 1); (4, 1)]
    []
    []
    []; mkTest (LArr [(LNum (10)%Z)]) (LNum (10)%Z)
    [(1, 1); (2, 10); (3, 1)]
    [(0, 1); (1, 1); (2, 1); (3, 10); (4, 1)]
    []
    []
    []].

(** while.yaml: simple while - statement on new line *)
Definition fx_while_2 : fixture := mkFixture
  (at_ 1 57 KModule [mk KModuleItems [(T 1 22 (KVarDecl VVar) [(list_ [(at_ 5 16 KVarDeclarator [(at_ 5 6 (KIdent "x") []);
  (X 9 16 (KOther 1) [(X 9 13 (KIdent "args") []);
  (at_ 14 15 (KOther 2) [(X 14 15 (KOther 1000) [])])])]);
  (at_ 18 21 KVarDeclarator [(at_ 18 19 (KIdent "i") []);
  (X 20 21 (KOther 1000) [])])])]);
  (T 23 44 KWhile [(X 30 35 (KBin (OpOther 4)) [(X 30 31 (KIdent "i") []);
  (X 34 35 (KIdent "x") [])]);
  (T 40 44 KExprStmt [(X 40 43 (KOther 20) [(X 40 41 (KIdent "i") [])])])]);
  (T 45 56 KExprStmt [(X 45 55 (KOther 10) [(at_ 45 51 (KIdent "output") []);
  (X 54 55 (KIdent "i") [])])])]])
  [1; 23; 37; 45; 57]
  []
  false [].
Definition fx_while_2_tests : list test := [mkTest (LArr [(LNum (10)%Z)]) (LNum (10)%Z)
    [(1, 1); (2, 1); (3, 10); (4, 1)]
    [(0, 1); (1, 1); (2, 1); (3, 10); (4, 1)]
    []
    []
    []; mkTest (LArr [(LNum (-1)%Z)]) (LNum (0)%Z)
    [(1, 1); (2, 1); (3, 0); (4, 1)]
    [(0, 1); (1, 1); (2, 1); (3, 0); (4, 1)]
    []
    []
    []].

(** while.yaml: simple while - statement in block *)
Definition fx_while_3 : fixture := mkFixture
  (at_ 1 58 KModule [mk KModuleItems [(T 1 22 (KVarDecl VVar) [(list_ [(at_ 5 16 KVarDeclarator [(at_ 5 6 (KIdent "x") []);
  (X 9 16 (KOther 1) [(X 9 13 (KIdent "args") []);
  (at_ 14 15 (KOther 2) [(X 14 15 (KOther 1000) [])])])]);
  (at_ 18 21 KVarDeclarator [(at_ 18 19 (KIdent "i") []);
  (X 20 21 (KOther 1000) [])])])]);
  (T 23 45 KWhile [(X 30 35 (KBin (OpOther 4)) [(X 30 31 (KIdent "i") []);
  (X 34 35 (KIdent "x") [])]);
  (at_ 37 45 KStmt [(block 37 45 [(T 39 43 KExprStmt [(X 39 42 (KOther 20) [(X 39 40 (KIdent "i") [])])])])])]);
  (T 46 57 KExprStmt [(X 46 56 (KOther 10) [(at_ 46 52 (KIdent "output") []);
  (X 55 56 (KIdent "i") [])])])]])
  [1; 23; 46; 58]
  []
  false [].
Definition fx_while_3_tests : list test := [mkTest (LArr [(LNum (10)%Z)]) (LNum (10)%Z)
    [(1, 1); (2, 10); (3, 1)]
    [(0, 1); (1, 1); (2, 1); (3, 10); (4, 1)]
    []
    []
    []].

(** while.yaml: labeled nested while *)
Definition fx_while_4 : fixture := mkFixture
  (at_ 1 181 KModule [mk KModuleItems [(T 1 39 (KVarDecl VVar) [(list_ [(at_ 5 16 KVarDeclarator [(at_ 5 6 (KIdent "x") []);
  (X 9 16 (KOther 1) [(X 9 13 (KIdent "args") []);
  (at_ 14 15 (KOther 2) [(X 14 15 (KOther 1000) [])])])]);
  (at_ 18 21 KVarDeclarator [(at_ 18 19 (KIdent "i") []);
  (X 20 21 (KOther 1000) [])]);
  (at_ 23 26 KVarDeclarator [(at_ 23 24 (KIdent "j") []);
  (X 25 26 (KOther 1000) [])]);
  (at_ 28 38 KVarDeclarator [(at_ 28 34 (KIdent "output") []);
  (X 37 38 (KOther 1000) [])])])]);
  (T 40 180 KLabeled [(at_ 40 45 (KIdent "outer") []);
  (T 50 180 KWhile [(X 57 64 (KBin (OpOther 4)) [(X 57 60 (KOther 20) [(X 57 58 (KIdent "i") [])]);
  (X 63 64 (KIdent "x") [])]);
  (at_ 66 180 KStmt [(block 66 180 [(T 75 80 KExprStmt [(X 75 79 (KOther 10) [(at_ 75 76 (KIdent "j") []);
  (X 78 79 (KOther 1000) [])])]);
  (T 88 175 KWhile [(X 95 102 (KBin (OpOther 4)) [(X 95 98 (KOther 20) [(X 95 96 (KIdent "j") [])]);
  (X 101 102 (KIdent "i") [])]);
  (at_ 104 175 KStmt [(block 104 175 [(T 117 126 KExprStmt [(X 117 125 (KOther 20) [(X 117 123 (KIdent "output") [])])]);
  (T 138 166 KIf [(X 142 149 (KBin (OpOther 6)) [(X 142 143 (KIdent "j") []);
  (X 148 149 (KOther 1002) [])]);
  (T 151 166 KContinue [(at_ 160 165 (KIdent "outer") [])]);
  none])])])])])])])])]])
  [1; 40; 47; 68; 81; 106; 127; 167; 176; 181]
  []
  false [].
Definition fx_while_4_tests : list test := [mkTest (LArr [(LNum (10)%Z)]) (LNum (19)%Z)
    [(1, 1); (2, 1); (3, 1); (4, 10); (5, 10); (6, 19); (7, 19)]
    [(0, 1); (1, 1); (2, 1); (3, 1); (4, 1); (5, 1); (6, 10); (7, 10); (8, 19); (9, 19); (10, 9)]
    []
    [(0, [9; 10])]
    []; mkTest (LArr [(LNum (-1)%Z)]) (LNum (0)%Z)
    [(1, 1); (2, 1); (3, 1); (4, 0); (5, 0); (6, 0); (7, 0)]
    [(0, 1); (1, 1); (2, 1); (3, 1); (4, 1); (5, 1); (6, 0); (7, 0); (8, 0); (9, 0); (10, 0)]
    []
    [(0, [0; 0])]
    []].

(** with.yaml: with statement - no blocks *)
Definition fx_with_1 : fixture := mkFixture
  (at_ 1 36 KScript [mk KStmts [(T 1 35 KWith [(X 7 11 (KIdent "Math") []);
  (T 13 35 KExprStmt [(X 13 34 (KOther 10) [(at_ 13 19 (KIdent "output") []);
  (X 22 34 (KOther 3) [(X 22 25 (KIdent "abs") []);
  (at_ 26 33 (KOther 4) [(X 26 33 (KOther 1) [(X 26 30 (KIdent "args") []);
  (at_ 31 32 (KOther 2) [(X 31 32 (KOther 1000) [])])])])])])])])]])
  [1; 36]
  []
  false [].
Definition fx_with_1_tests : list test := [mkTest (LArr [(LNum (-1)%Z)]) (LNum (1)%Z)
    [(1, 1)]
    [(0, 1); (1, 1)]
    []
    []
    []].

(** with.yaml: with statement with block *)
Definition fx_with_2 : fixture := mkFixture
  (at_ 1 40 KScript [mk KStmts [(T 1 39 KWith [(X 7 11 (KIdent "Math") []);
  (at_ 13 39 KStmt [(block 13 39 [(T 15 37 KExprStmt [(X 15 36 (KOther 10) [(at_ 15 21 (KIdent "output") []);
  (X 24 36 (KOther 3) [(X 24 27 (KIdent "abs") []);
  (at_ 28 35 (KOther 4) [(X 28 35 (KOther 1) [(X 28 32 (KIdent "args") []);
  (at_ 33 34 (KOther 2) [(X 33 34 (KOther 1000) [])])])])])])])])])])]])
  [1; 40]
  []
  false [].
Definition fx_with_2_tests : list test := [mkTest (LArr [(LNum (-1)%Z)]) (LNum (1)%Z)
    [(1, 1)]
    [(0, 1); (1, 1)]
    []
    []
    []].

(** yield.yaml: simple yield *)
Definition fx_yield_1 : fixture := mkFixture
  (at_ 1 159 KModule [mk KModuleItems [(T 1 60 KFnDecl [(at_ 11 18 (KIdent "yielder") []);
  (at_ 1 60 KFunction [(list_ []);
  (list_ []);
  (block 21 60 [(T 26 34 KExprStmt [(X 26 33 (KOther 47) [(X 32 33 (KOther 1001) [])])]);
  (T 38 46 KExprStmt [(X 38 45 (KOther 47) [(X 44 45 (KOther 1002) [])])]);
  (T 50 58 KExprStmt [(X 50 57 (KOther 47) [(X 56 57 (KOther 1003) [])])])]);
  types])]);
  (T 61 86 (KVarDecl VVar) [(list_ [(at_ 65 70 KVarDeclarator [(at_ 65 66 (KIdent "x") []);
  (X 69 70 (KOther 1000) [])]);
  (at_ 72 85 KVarDeclarator [(at_ 72 73 (KIdent "y") []);
  (X 76 85 (KOther 3) [(X 76 83 (KIdent "yielder") [])])])])]);
  (T 87 146 KFor [(at_ 92 101 (KVarDecl VVar) [(list_ [(at_ 96 101 KVarDeclarator [(at_ 96 97 (KIdent "i") []);
  (X 100 101 (KOther 1000) [])])])]);
  (X 103 108 (KBin (OpOther 4)) [(X 103 104 (KIdent "i") []);
  (X 107 108 (KOther 1002) [])]);
  (X 110 116 (KOther 11) [(at_ 110 111 (KIdent "i") []);
  (X 115 116 (KOther 1001) [])]);
  (at_ 119 146 KStmt [(block 119 146 [(T 124 144 KExprStmt [(X 124 143 (KOther 11) [(at_ 124 125 (KIdent "x") []);
  (X 129 143 (KOther 1) [(X 129 137 (KOther 3) [(X 129 135 (KOther 1) [(X 129 130 (KIdent "y") []);
  (at_ 131 135 (KPropIdent "next") [])])]);
  (at_ 138 143 (KPropIdent "value") [])])])])])])]);
  (T 147 158 KExprStmt [(X 147 157 (KOther 10) [(at_ 147 153 (KIdent "output") []);
  (X 156 157 (KIdent "x") [])])])]])
  [1; 23; 35; 47; 59; 61; 87; 121; 145; 147; 159]
  []
  false [].
Definition fx_yield_1_tests : list test := [mkTest (LArr []) (LNum (3)%Z)
    [(2, 1); (3, 1); (4, 0); (6, 1); (7, 1); (8, 2); (10, 1)]
    [(0, 1); (1, 1); (2, 0); (3, 1); (4, 1); (5, 1); (6, 1); (7, 2); (8, 1)]
    [(0, 1)]
    []
    []].

(** Fixtures that are run: source, whether the output is compared, tests *)
Definition suites : list (fixture * bool * list test) :=
  [(fx_arrow_fn_1, true, fx_arrow_fn_1_tests);
   (fx_arrow_fn_2, true, fx_arrow_fn_2_tests);
   (fx_arrow_fn_3, true, fx_arrow_fn_3_tests);
   (fx_arrow_fn_4, true, fx_arrow_fn_4_tests);
   (fx_arrow_fn_5, true, fx_arrow_fn_5_tests);
   (fx_arrow_fn_6, false, fx_arrow_fn_6_tests);
   (fx_class_properties_1, true, fx_class_properties_1_tests);
   (fx_class_properties_2, true, fx_class_properties_2_tests);
   (fx_classes_1, false, fx_classes_1_tests);
   (fx_classes_2, false, fx_classes_2_tests);
   (fx_default_args_1, true, fx_default_args_1_tests);
   (fx_do_while_1, true, fx_do_while_1_tests);
   (fx_do_while_2, true, fx_do_while_2_tests);
   (fx_do_while_3, true, fx_do_while_3_tests);
   (fx_expressions_1, true, fx_expressions_1_tests);
   (fx_expressions_2, true, fx_expressions_2_tests);
   (fx_expressions_3, true, fx_expressions_3_tests);
   (fx_expressions_4, true, fx_expressions_4_tests);
   (fx_expressions_5, true, fx_expressions_5_tests);
   (fx_for_in_1, true, fx_for_in_1_tests);
   (fx_for_in_2, true, fx_for_in_2_tests);
   (fx_for_1, true, fx_for_1_tests);
   (fx_for_2, true, fx_for_2_tests);
   (fx_for_3, true, fx_for_3_tests);
   (fx_for_4, true, fx_for_4_tests);
   (fx_for_5, true, fx_for_5_tests);
   (fx_for_6, true, fx_for_6_tests);
   (fx_for_7, true, fx_for_7_tests);
   (fx_for_8, true, fx_for_8_tests);
   (fx_for_9, true, fx_for_9_tests);
   (fx_functions_1, true, fx_functions_1_tests);
   (fx_functions_2, true, fx_functions_2_tests);
   (fx_functions_3, true, fx_functions_3_tests);
   (fx_functions_4, true, fx_functions_4_tests);
   (fx_functions_5, false, fx_functions_5_tests);
   (fx_functions_6, false, fx_functions_6_tests);
   (fx_functions_7, true, fx_functions_7_tests);
   (fx_functions_8, true, fx_functions_8_tests);
   (fx_if_hints_1, true, fx_if_hints_1_tests);
   (fx_if_hints_2, true, fx_if_hints_2_tests);
   (fx_if_hints_3, true, fx_if_hints_3_tests);
   (fx_if_hints_4, true, fx_if_hints_4_tests);
   (fx_if_hints_5, true, fx_if_hints_5_tests);
   (fx_if_hints_6, true, fx_if_hints_6_tests);
   (fx_if_hints_7, true, fx_if_hints_7_tests);
   (fx_if_hints_8, true, fx_if_hints_8_tests);
   (fx_if_hints_9, true, fx_if_hints_9_tests);
   (fx_if_hints_10, true, fx_if_hints_10_tests);
   (fx_if_hints_11, true, fx_if_hints_11_tests);
   (fx_if_hints_12, true, fx_if_hints_12_tests);
   (fx_if_hints_13, true, fx_if_hints_13_tests);
   (fx_if_hints_14, true, fx_if_hints_14_tests);
   (fx_if_1, true, fx_if_1_tests);
   (fx_if_2, true, fx_if_2_tests);
   (fx_if_3, true, fx_if_3_tests);
   (fx_if_4, true, fx_if_4_tests);
   (fx_if_5, true, fx_if_5_tests);
   (fx_if_6, true, fx_if_6_tests);
   (fx_if_7, true, fx_if_7_tests);
   (fx_if_8, true, fx_if_8_tests);
   (fx_if_9, true, fx_if_9_tests);
   (fx_if_10, true, fx_if_10_tests);
   (fx_if_11, true, fx_if_11_tests);
   (fx_if_12, true, fx_if_12_tests);
   (fx_if_13, true, fx_if_13_tests);
   (fx_if_14, true, fx_if_14_tests);
   (fx_if_15, true, fx_if_15_tests);
   (fx_if_16, true, fx_if_16_tests);
   (fx_if_17, true, fx_if_17_tests);
   (fx_input_source_map_1, true, fx_input_source_map_1_tests);
   (fx_input_source_map_2, true, fx_input_source_map_2_tests);
   (fx_issue_233_1, true, fx_issue_233_1_tests);
   (fx_issue_258_1, true, fx_issue_258_1_tests);
   (fx_issue_277_1, true, fx_issue_277_1_tests);
   (fx_object_method_1, true, fx_object_method_1_tests);
   (fx_object_method_2, true, fx_object_method_2_tests);
   (fx_object_spread_1, true, fx_object_spread_1_tests);
   (fx_statement_hints_1, true, fx_statement_hints_1_tests);
   (fx_statement_hints_2, true, fx_statement_hints_2_tests);
   (fx_statement_hints_3, true, fx_statement_hints_3_tests);
   (fx_statement_hints_4, true, fx_statement_hints_4_tests);
   (fx_statement_hints_5, true, fx_statement_hints_5_tests);
   (fx_statement_hints_6, true, fx_statement_hints_6_tests);
   (fx_statement_hints_7, true, fx_statement_hints_7_tests);
   (fx_statement_hints_8, true, fx_statement_hints_8_tests);
   (fx_statement_hints_9, true, fx_statement_hints_9_tests);
   (fx_statement_hints_10, true, fx_statement_hints_10_tests);
   (fx_statement_hints_11, true, fx_statement_hints_11_tests);
   (fx_statement_hints_12, true, fx_statement_hints_12_tests);
   (fx_statement_hints_13, true, fx_statement_hints_13_tests);
   (fx_statement_1, true, fx_statement_1_tests);
   (fx_statement_2, true, fx_statement_2_tests);
   (fx_switch_1, true, fx_switch_1_tests);
   (fx_switch_2, true, fx_switch_2_tests);
   (fx_switch_3, true, fx_switch_3_tests);
   (fx_switch_4, true, fx_switch_4_tests);
   (fx_switch_5, true, fx_switch_5_tests);
   (fx_switch_6, true, fx_switch_6_tests);
   (fx_switch_7, true, fx_switch_7_tests);
   (fx_tenary_1, true, fx_tenary_1_tests);
   (fx_truthy_1, true, fx_truthy_1_tests);
   (fx_truthy_2, true, fx_truthy_2_tests);
   (fx_truthy_3, true, fx_truthy_3_tests);
   (fx_truthy_4, true, fx_truthy_4_tests);
   (fx_truthy_5, true, fx_truthy_5_tests);
   (fx_truthy_6, true, fx_truthy_6_tests);
   (fx_truthy_7, true, fx_truthy_7_tests);
   (fx_truthy_8, true, fx_truthy_8_tests);
   (fx_truthy_9, true, fx_truthy_9_tests);
   (fx_try_1, true, fx_try_1_tests);
   (fx_try_2, true, fx_try_2_tests);
   (fx_while_1, true, fx_while_1_tests);
   (fx_while_2, true, fx_while_2_tests);
   (fx_while_3, true, fx_while_3_tests);
   (fx_while_4, true, fx_while_4_tests);
   (fx_with_1, true, fx_with_1_tests);
   (fx_with_2, true, fx_with_2_tests)].

(** Fixtures of which only the tables are compared *)
Definition generators : list (fixture * list test) :=
  [(fx_for_of_1, fx_for_of_1_tests);
   (fx_for_of_2, fx_for_of_2_tests);
   (fx_yield_1, fx_yield_1_tests)].

(** Fixtures that are only instrumented *)
Definition generate_only : list fixture :=
  [fx_es6_modules_1;
   fx_es6_modules_2;
   fx_meta_property_1;
   fx_statement_3].

(** Fixtures that are not to be instrumented *)
Definition ignored_files : list fixture :=
  [fx_ignore_1].

