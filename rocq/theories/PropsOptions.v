(** Property theorems proved in [Options.v]; generated by tools/genprops.py. *)
From Coq Require Import NArith String Ascii List Bool Lia PeanoNat Permutation.
Import ListNotations.
From Verif Require Import Base IndexMap Decimal Oxide Json CovJson JsonParse Serde.
Open Scope string_scope.
From Verif Require Import Options.

Theorem C48_read_options : forall ms o, de_options (VObj ms) = Some o <->
  Keys ms /\
  Field ms "coverageVariable" de_string "__coverage__" (o_variable o) /\
  Field ms "compact" de_bool false (o_compact o) /\
  Field ms "reportLogic" de_bool false (o_report_logic o) /\
  Field ms "ignoreClassMethods" (de_vec de_string) [] (o_ignore_methods o) /\
  Field ms "inputSourceMap" (de_option de_source_map) None (o_source_map o) /\
  Field ms "instrumentLog" de_log (mkLog None false) (o_log o) /\
  Field ms "debugInitialCoverageComment" de_bool false (o_debug_comment o) /\
  Field ms "unstableExclude" (de_option (de_vec de_string)) None (o_exclude o).
Proof. exact (@read_options). Qed.
Print Assumptions C48_read_options.

Theorem C48_read_options_array : forall l o, de_options (VArr l) = Some o <->
  (length l <= 8)%nat /\
  Place l 0 de_string "__coverage__" (o_variable o) /\ Place l 1 de_bool false (o_compact o) /\
  Place l 2 de_bool false (o_report_logic o) /\ Place l 3 (de_vec de_string) [] (o_ignore_methods o) /\
  Place l 4 (de_option de_source_map) None (o_source_map o) /\ Place l 5 de_log (mkLog None false) (o_log o) /\
  Place l 6 de_bool false (o_debug_comment o) /\ Place l 7 (de_option (de_vec de_string)) None (o_exclude o).
Proof. exact (@read_options_array). Qed.
Print Assumptions C48_read_options_array.

Theorem C48_read_options_other : forall v, match v with VObj _ | VArr _ => False | _ => True end -> de_options v = None.
Proof. exact (@read_options_other). Qed.
Print Assumptions C48_read_options_other.

Theorem C48_read_log : forall ms l, de_log (VObj ms) = Some l <->
  Keys ms /\ Field ms "level" (de_option de_string) None (lo_level l) /\ Field ms "enableTrace" de_bool false (lo_trace l).
Proof. exact (@read_log). Qed.
Print Assumptions C48_read_log.

Theorem C48_unknown_member : forall ms us k v, units us = Some k ->
  ~ In k ["coverageVariable"; "compact"; "reportLogic"; "ignoreClassMethods"; "inputSourceMap"; "instrumentLog";
          "debugInitialCoverageComment"; "unstableExclude"] ->
  de_options (VObj ((us, v) :: ms)) = de_options (VObj ms).
Proof. exact (@unknown_member). Qed.
Print Assumptions C48_unknown_member.

Theorem C48_repeated_option : forall ms us1 v1 us2 v2 l1 l2 l3 k,
  ms = (l1 ++ (us1, v1) :: l2 ++ (us2, v2) :: l3)%list -> units us1 = Some k -> units us2 = Some k ->
  In k ["coverageVariable"; "compact"; "reportLogic"; "ignoreClassMethods"; "inputSourceMap"; "instrumentLog";
        "debugInitialCoverageComment"; "unstableExclude"] ->
  de_options (VObj ms) = None.
Proof. exact (@repeated_option). Qed.
Print Assumptions C48_repeated_option.

Theorem C48_options_order : forall ms ms', Permutation ms ms' -> de_options (VObj ms) = de_options (VObj ms').
Proof. exact (@options_order). Qed.
Print Assumptions C48_options_order.

Theorem C48_options_round_trip : forall o, (forall s, o_source_map o = Some s -> is_u32 (sm_version s)) ->
  decode_options (print (options_json o)) = Some o.
Proof. exact (@options_round_trip). Qed.
Print Assumptions C48_options_round_trip.

Theorem C48_decode_ex :
  decode_options "{}" = Some default_options /\ decode_options " [ ] " = Some default_options /\
  decode_options "{""reportLogic"": true, ""coverageVariable"": ""__cova__"", ""foo"": {""a"": [1, null]}, ""unstableExclude"": [""**/*.test.js""]}"
  = Some (mkOptions "__cova__" false true [] None (mkLog None false) false (Some ["**/*.test.js"])) /\
  decode_options "{""instrumentLog"": {""level"": ""trace""}, ""inputSourceMap"": {""sources"": [""a.js""]}}"
  = Some (mkOptions "__coverage__" false false [] (Some (mkSourceMap 3 None None ["a.js"] None [] "")) (mkLog (Some "trace") false) false None) /\
  decode_options "{""unstableExclude"": null, ""inputSourceMap"": null}" = Some default_options /\
  decode_options "{""compact"": null}" = None /\ decode_options "{""compact"": ""true""}" = None /\
  decode_options "{""unstableExclude"": ""**/*.test.js""}" = None /\
  decode_options "{""compact"": true, ""compact"": true}" = None /\ decode_options "{""compact"": true,}" = None /\
  decode_options "null" = None /\ decode_options "" = None /\ decode_options "{} {}" = None.
Proof. exact (@decode_ex). Qed.
Print Assumptions C48_decode_ex.

