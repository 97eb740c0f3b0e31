(** Property theorems proved in [Nested.v]; generated by tools/genprops.py. *)
From Coq Require Import NArith String List Bool Lia PeanoNat.
Import ListNotations.
From Verif Require Import Base IndexMap Decimal Oxide SourceCov Hints Ast Visitor VisitorRel VisitorEx Counting Slots Erase Prologue Layout Positions FixtureRun Fixtures.
From Verif Require Import Nested.

Theorem C68_paths_inside : forall e n path ism t t' c, mapped e -> laid t -> instrument e n path ism t = Ok (t', c) ->
  Forall (fun p => branch_holds (snd p)) (fc_branch_map (sc_fc c)).
Proof. exact (@paths_inside). Qed.
Print Assumptions C68_paths_inside.

Theorem C68_record_nested : forall e n path ism t t' c, mapped e -> clean t = true -> laid t -> laminar t -> instrument e n path ism t = Ok (t', c) ->
  forall r q, In r (record_places (sc_fc c)) -> In q (record_places (sc_fc c)) -> parts_agree r q.
Proof. exact (@record_nested). Qed.
Print Assumptions C68_record_nested.

Theorem C68_fixtures_laid : forall x o ts, In (x, o, ts) suites -> mapped (env_of x) /\ clean (fx_tree x) = true /\ laid (fx_tree x) /\ laminar (fx_tree x).
Proof. exact (@fixtures_laid). Qed.
Print Assumptions C68_fixtures_laid.

Theorem C68_nested_ex :
  let at2 r := (column (rstart r), column (rend r)) in
  let x := T 1 11 KExprStmt [X 1 10 KCond [X 1 2 (KIdent "x") []; X 5 6 (KIdent "y") []; X 9 10 (KIdent "z") []]] in
  let t := at_ 1 40 KModule [mk KModuleItems [x; T 12 40 KIf [X 16 17 (KIdent "x") []; T 19 40 (KBlock false) [mk KStmts []]; none]]] in
  mapped plain_env /\ clean t = true /\ laid t /\ laminar t /\
  match instrument plain_env 40 "f.js" None t with
  | Ok (_, c) => map (fun p => (option_map at2 (b_loc (snd p)), map at2 (b_locations (snd p)))) (fc_branch_map (sc_fc c)) =
      [(Some (1, 10), [(5, 6); (9, 10)]); (Some (12, 40), [(12, 40); (12, 40)])]
  | _ => False
  end.
Proof. exact (@nested_ex). Qed.
Print Assumptions C68_nested_ex.

