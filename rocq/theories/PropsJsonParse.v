(** Property theorems proved in [JsonParse.v]; generated by tools/genprops.py. *)
From Coq Require Import NArith String Ascii List Bool Lia PeanoNat DecimalString.
Import ListNotations.
From Verif Require Import Decimal Json.
Open Scope string_scope.
From Verif Require Import JsonParse.

Theorem C48_parse_grammar : forall s v, parse s = Some v <-> Text v s.
Proof. exact (@parse_grammar). Qed.
Print Assumptions C48_parse_grammar.

Theorem C48_parse_fuel : forall s, value (enough s) s <> PFuel.
Proof. exact (@parse_fuel). Qed.
Print Assumptions C48_parse_fuel.

Theorem C48_text_unique : forall s v1 v2, Text v1 s -> Text v2 s -> v1 = v2.
Proof. exact (@text_unique). Qed.
Print Assumptions C48_text_unique.

