(** Property theorems proved in [DebugComment.v]; generated by tools/genprops.py. *)
From Coq Require Import NArith String Ascii List Bool Lia PeanoNat.
Import ListNotations.
From Verif Require Import Base IndexMap Decimal Oxide SourceCov Hints Ast Visitor VisitorEx CountingRoot Produced Json CovJson JsonParse Serde Builder.
Open Scope string_scope.
From Verif Require Import DebugComment.

Theorem C50_record_from_comment : forall pre fc post, fc_u32 fc -> ~ Occurs marker pre ->
  (forall s, In s (record_strings fc) -> ~ Occurs marker s /\ ~ Occurs "*/" s) ->
  exists text, last_file_coverage (pre ++ block_comment (debug_comment fc) ++ post) = Some text /\
               from_str de_file_coverage text = Some fc.
Proof. exact (@record_from_comment). Qed.
Print Assumptions C50_record_from_comment.

Theorem C50_produced_from_comment : forall e n path t items t' sc pre post, program_items t = Some items ->
  instrument e n path None t = Ok (t', sc) -> (sc_s sc <= u32_mod)%N -> (sc_f sc <= u32_mod)%N -> (sc_b sc <= u32_mod)%N ->
  ~ Occurs marker pre -> (forall s, In s (path :: idents t) -> ~ Occurs marker s /\ ~ Occurs "*/" s) ->
  exists text, last_file_coverage (pre ++ block_comment (debug_comment (sc_fc sc)) ++ post) = Some text /\
               from_str de_file_coverage text = Some (sc_fc sc).
Proof. exact (@produced_from_comment). Qed.
Print Assumptions C50_produced_from_comment.

Theorem C50_record_text_occurs : forall p fc, p = marker \/ p = "*/" ->
  (Occurs p (fc_text fc) <-> exists s, In s (record_strings fc) /\ Occurs p s).
Proof. exact (@record_text_occurs). Qed.
Print Assumptions C50_record_text_occurs.

Theorem C50_comment_ends_early : forall fc s, In s (record_strings fc) -> Occurs "*/" s ->
  exists a b, block_comment (debug_comment fc) = "/*" ++ a ++ "*/" ++ b /\ b <> "" /\ ~ Occurs "*/" a.
Proof. exact (@comment_ends_early). Qed.
Print Assumptions C50_comment_ends_early.

Theorem C50_comment_lost_refuted : exists e ism t items t' sc text, program_items t = Some items /\
  instrument e 40 "f.js" (Some ism) t = Ok (t', sc) /\
  sm_sources_content ism = Some [Some "/* c */ f();"] /\
  last_file_coverage (block_comment (debug_comment (sc_fc sc))) = Some text /\ from_str de_file_coverage text = None.
Proof. exact (@comment_lost_refuted). Qed.
Print Assumptions C50_comment_lost_refuted.

Theorem C50_read_debug_comment : forall pre text post, text <> "" -> one_line text = true ->
  ~ Occurs marker pre -> ~ Occurs marker text -> ~ Occurs "*/" text ->
  last_file_coverage (pre ++ block_comment (marker ++ text) ++ post) = Some text.
Proof. exact (@read_debug_comment). Qed.
Print Assumptions C50_read_debug_comment.

Theorem C50_print_occurs : forall p j, foreign p = true -> (Occurs p (print j) <-> exists s, In s (strings j) /\ Occurs p s).
Proof. exact (@print_occurs). Qed.
Print Assumptions C50_print_occurs.

Theorem C50_from_comment_ex :
  let code := ("f();" ++ String newline "g(); " ++
     block_comment (debug_comment (mkFC false "a*b/c.js" [(0%N, mkRange (mkLoc 1 0) (mkLoc 1 4))] [] [] [(0%N, 0%N)] [] [] None None)) ++ " " ++ ch1 newline)%string in
  exists text, last_file_coverage code = Some text /\ prefix "{""all"":false,""path"":""a*b/c.js""," text = true /\
  from_str de_file_coverage text = Some (mkFC false "a*b/c.js" [(0%N, mkRange (mkLoc 1 0) (mkLoc 1 4))] [] [] [(0%N, 0%N)] [] [] None None).
Proof. exact (@from_comment_ex). Qed.
Print Assumptions C50_from_comment_ex.

