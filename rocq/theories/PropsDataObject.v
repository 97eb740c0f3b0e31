(** Property theorems proved in [DataObject.v]; generated by tools/genprops.py. *)
From Coq Require Import NArith String Ascii List Bool Lia Permutation Sorted.
Import ListNotations.
From Verif Require Import Base IndexMap Decimal Oxide Json SipHash CovJson.
Open Scope string_scope.
From Verif Require Import DataObject.

Theorem C20_data_object_value : forall fc, fc_names_plain fc ->
  eval (snd (coverage_data_object fc)) = Some (JObj (fc_value fc)).
Proof. exact (@data_object_value). Qed.
Print Assumptions C20_data_object_value.

Theorem C20_literal_is_the_data : forall fc, fc_names_plain fc -> unique_keys fc ->
  exists v fc', eval (snd (coverage_data_object fc)) = Some (JObj v) /\
    map fst v = field_names fc /\
    read_fc (JObj v) = Some fc' /\ same_data fc' fc /\
    prop "_coverageSchema" v = Some (JStr "11020577277169172593") /\
    prop "hash" v = Some (JStr (fst (coverage_data_object fc))).
Proof. exact (@literal_is_the_data). Qed.
Print Assumptions C20_literal_is_the_data.

Theorem C20_literal_recovers_exactly : forall fc, fc_names_plain fc -> all_ascending fc ->
  exists v, eval (snd (coverage_data_object fc)) = Some v /\ read_fc v = Some fc.
Proof. exact (@literal_recovers_exactly). Qed.
Print Assumptions C20_literal_recovers_exactly.

Theorem C20_unescaped_name_refuted : exists fc, unique_keys fc /\ eval (snd (coverage_data_object fc)) = None.
Proof. exact (@unescaped_name_refuted). Qed.
Print Assumptions C20_unescaped_name_refuted.

Theorem C21_literal_is_the_data : forall fc, fc_names_plain fc -> unique_keys fc ->
  exists v fc', eval (snd (coverage_data_object fc)) = Some (JObj v) /\
    map fst v = field_names fc /\
    read_fc (JObj v) = Some fc' /\ same_data fc' fc /\
    prop "_coverageSchema" v = Some (JStr "11020577277169172593") /\
    prop "hash" v = Some (JStr (fst (coverage_data_object fc))).
Proof. exact (@literal_is_the_data). Qed.
Print Assumptions C21_literal_is_the_data.

