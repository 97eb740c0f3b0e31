(** Property theorems proved in [SipHash.v]; generated by tools/genprops.py. *)
From Coq Require Import NArith String Ascii List Bool Lia.
Import ListNotations.
From Verif Require Import Decimal.
Open Scope N_scope.
From Verif Require Import SipHash.

Theorem C21_hash_str_lt : forall s, hash_str s < 2 ^ 64.
Proof. exact (@hash_str_lt). Qed.
Print Assumptions C21_hash_str_lt.

Theorem C24_fn_name_vector : dec (hash_str "test-emotion.js") = "14220330533750098279"%string.
Proof. exact (@fn_name_vector). Qed.
Print Assumptions C24_fn_name_vector.

