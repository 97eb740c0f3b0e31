(** Property theorems proved in [PluginLog.v]; generated by tools/genprops.py. *)
From Coq Require Import NArith String List Bool.
Import ListNotations.
From Verif Require Import Base Options Ast Visitor Plugin.
From Verif Require Import PluginLog.

Theorem C44_log_once : forall x m n t p,
  (excluded x (options_of m) (file_name m) = false -> wants_log m -> p_log p = true -> process x m n t p = Panic RLogInit) /\
  (forall out p', process x m n t p = Ok (out, p') ->
     (p_log p' = true <-> p_log p = true \/ (excluded x (options_of m) (file_name m) = false /\ wants_log m))) /\
  (~ wants_log m -> forall q, p_fn q = p_fn p -> p_temp q = p_temp p ->
     match process x m n t p, process x m n t q with
     | Ok (a, p1), Ok (b, q1) => a = b /\ p_fn p1 = p_fn q1 /\ p_temp p1 = p_temp q1
     | Panic r, Panic s => r = s
     | OutOfFuel, OutOfFuel => True
     | _, _ => False
     end).
Proof. exact (@log_once). Qed.
Print Assumptions C44_log_once.

Theorem C44_log_once_ex : Forall (fun s => wants_log (log_meta s) /\
    excluded no_ext (options_of (log_meta s)) "a.js" = false) levels /\ ~ wants_log (log_meta "loud").
Proof. exact (@log_once_ex). Qed.
Print Assumptions C44_log_once_ex.

