(** Property theorems proved in [TaggedLogic.v]; generated by tools/genprops.py. *)
From Coq Require Import NArith String List Bool Lia PeanoNat.
Import ListNotations.
From Verif Require Import Base IndexMap Oxide SourceCov Hints Ast Visitor VisitorRel VisitorEx Erase Sem SemShape SemErase SemVisit SemProps LogicOption.
From Verif Require Import TaggedLogic.

Theorem C34_tagged_or_ex :
  hs tag_toy (snd (run_program tag_toy 40 ex_tagged_or tt w0)) = mkWorld [("y", 0)] [7] [] /\
  match instrument logic_env 60 "f.js" None ex_tagged_or with
  | Ok (t', _) => hs tag_toy (snd (run_program tag_toy 40 t' tt w0)) = mkWorld [("y", 0)] [1] []
  | _ => False
  end /\
  match instrument plain_env 60 "f.js" None ex_tagged_or with
  | Ok (t', _) => hs tag_toy (snd (run_program tag_toy 40 t' tt w0)) = mkWorld [("y", 0)] [7] []
  | _ => False
  end /\
  match instrument logic_env 60 "f.js" None ex_tagged_stmt with
  | Ok (t', _) => hs tag_toy (snd (run_program tag_toy 40 t' tt w0)) = mkWorld [] [7] []
  | _ => False
  end.
Proof. exact (@tagged_or_ex). Qed.
Print Assumptions C34_tagged_or_ex.

Theorem C34_same_behaviour_tagged_refuted :
  exists e t t' c h fuel x w,
    clean t = true /\ covered_program false t = true /\ e_report_logic e = true /\ pure_tests h /\
    instrument e 60 "f.js" None t = Ok (t', c) /\
    hs h (snd (run_program h fuel t' x w)) <> hs h (snd (run_program h fuel t x w)).
Proof. exact (@same_behaviour_tagged_refuted). Qed.
Print Assumptions C34_same_behaviour_tagged_refuted.

Theorem C54_tagged_adds_paths_refuted : exists t,
  match instrument (with_logic false logic_env) 60 "f.js" None t, instrument (with_logic true logic_env) 60 "f.js" None t with
  | Ok (_, c), Ok (_, d) =>
      fc_b (sc_fc c) = [(0, [0; 0]); (1, [0; 0])] /\
      fc_b (sc_fc d) = [(0, [0; 0]); (1, repeat 0 10)] /\
      fc_b_t (sc_fc d) = Some (fc_b (sc_fc d)) /\
      option_map b_locations (im_get 1 (fc_branch_map (sc_fc d))) = Some (repeat (mkRange (mkLoc 0 0) (mkLoc 0 0)) 10)
  | _, _ => False
  end.
Proof. exact (@tagged_adds_paths_refuted). Qed.
Print Assumptions C54_tagged_adds_paths_refuted.

