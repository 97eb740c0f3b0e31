(** Property theorems proved in [CovJson.v]; generated by tools/genprops.py. *)
From Coq Require Import NArith String Ascii List Bool Lia DecimalString DecimalN.
Import ListNotations.
From Verif Require Import Base IndexMap Decimal Oxide Json SipHash.
Open Scope string_scope.
From Verif Require Import CovJson.

Theorem C21_fc_text_injective : forall a b, fc_text a = fc_text b -> a = b.
Proof. exact (@fc_text_injective). Qed.
Print Assumptions C21_fc_text_injective.

Theorem C21_fc_hash_collision : forall a b, fc_hash a = fc_hash b -> a <> b ->
  fc_text a <> fc_text b /\ hash_str (fc_text a) = hash_str (fc_text b).
Proof. exact (@fc_hash_collision). Qed.
Print Assumptions C21_fc_hash_collision.

Theorem C21_fc_hash_ex : fc_hash emotion_fc = "15339889637910252771".
Proof. exact (@fc_hash_ex). Qed.
Print Assumptions C21_fc_hash_ex.

