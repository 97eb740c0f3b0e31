(** Property theorems proved in [Local.v]; generated by tools/genprops.py. *)
From Coq Require Import NArith String List Bool Lia PeanoNat.
Import ListNotations.
From Verif Require Import Base IndexMap Oxide SourceCov Hints Ast Visitor VisitorRel VisitorEx Erase
  Counting Suppress.
Open Scope N_scope.
From Verif Require Import Local.

Theorem C36_if_hints : forall e n v sp test con alt s t' s',
  visit e (S n) v (Node KIf sp [test; con; alt]) s = Ok (t', s') ->
  is_instr v = true -> (forall b0, v = VSwitch b0 -> b0 < sc_b (cov s)) ->
  good false (Node KIf sp [test; con; alt]) = true ->
  is_next (ign s) = false -> is_next (hint e sp) = false ->
  let b := sc_b (cov s) in
  exists test' con' alt' paths,
  t' = Node KIf sp [test'; con'; alt'] /\
  match hint e sp with
  | Some IIf => con' = con /\ headed (CB b 0) alt' /\ paths = 1%nat
  | Some IElse => headed (CB b 0) con' /\ alt' = alt /\ paths = 1%nat
  | _ => headed (CB b 0) con' /\ headed (CB b 1) alt' /\ paths = 2%nat
  end /\
  let r := range_of e sp in
  entry (cov s') b = (Some (mkBranch (Some r) BIf (repeat r paths) (Some (line (rstart r)))),
                      Some (repeat 0 paths)).
Proof. exact (@if_hints). Qed.
Print Assumptions C36_if_hints.

Theorem C36_if_hints_ex :
  good false ex_if = true /\
  map (fun text => match visit (comment_env 30 text) 20 VCov ex_if (init_state plain_env "f.js" None) with
                   | Ok (t', s') => (counters t', snd (entry (cov s') 0)) | _ => ([], None) end)
      [" istanbul ignore if"; " istanbul ignore else"; " istanbul ignore next"; ""]%string =
  [([CB 0 0; CS 1], Some [0]); ([CB 0 0; CS 1], Some [0]); ([], None);
   ([CB 0 0; CS 1; CB 0 1; CS 2], Some [0; 0])].
Proof. exact (@if_hints_ex). Qed.
Print Assumptions C36_if_hints_ex.

