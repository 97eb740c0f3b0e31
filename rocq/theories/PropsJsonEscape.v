(** Property theorems proved in [JsonEscape.v]; generated by tools/genprops.py. *)
From Coq Require Import NArith String Ascii List.
Import ListNotations.
From Verif Require Import Json.
From Verif Require Import JsonEscape.

Theorem C21_escape_table : forall s, exists l,
  print (JStr s) = String """" (String.concat "" l ++ """") /\
  Forall2 (fun c t => In (c, t) escapes \/ (~ In c (map fst escapes) /\ t = String c "")) (list_ascii_of_string s) l.
Proof. exact (@escape_table). Qed.
Print Assumptions C21_escape_table.

Theorem C21_escape_ex : print (JStr (String "027" (String "010" "a/é""\"))) = """\u001b\na/é\""\\""".
Proof. exact (@escape_ex). Qed.
Print Assumptions C21_escape_ex.

