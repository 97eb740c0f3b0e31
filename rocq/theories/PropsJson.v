(** Property theorems proved in [Json.v]; generated by tools/genprops.py. *)
From Coq Require Import NArith String Ascii List Bool Lia.
Import ListNotations.
From Verif Require Import Decimal.
Open Scope string_scope.
From Verif Require Import Json.

Theorem C21_print_ex : print (JObj [("a", JArr [JNum 10; JNull; JBool false]); ("b", JStr (String dquote (ch1 "010")))])
  = "{""a"":[10,null,false],""b"":""\""\n""}".
Proof. exact (@print_ex). Qed.
Print Assumptions C21_print_ex.

