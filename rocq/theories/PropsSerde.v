(** Property theorems proved in [Serde.v]; generated by tools/genprops.py. *)
From Coq Require Import NArith String Ascii List Bool Lia PeanoNat Permutation.
Import ListNotations.
From Verif Require Import Base IndexMap Decimal Oxide Json CovJson JsonParse.
Open Scope string_scope.
From Verif Require Import Serde.

Theorem C48_read_source_map_spec : forall ms s, de_source_map (VObj ms) = Some s <->
  Keys ms /\ Field ms "version" de_u32 3%N (sm_version s) /\ Field ms "file" (de_option de_string) None (sm_file s) /\
  Field ms "sourceRoot" (de_option de_string) None (sm_source_root s) /\ Field ms "sources" (de_vec de_string) [] (sm_sources s) /\
  Field ms "sourcesContent" (de_option (de_vec (de_option de_string))) None (sm_sources_content s) /\
  Field ms "names" (de_vec de_string) [] (sm_names s) /\ Field ms "mappings" de_string "" (sm_mappings s).
Proof. exact (@read_source_map_spec). Qed.
Print Assumptions C48_read_source_map_spec.

Theorem C48_string_value : forall us t s, Chars us t -> (units us = Some s <-> Str us s).
Proof. exact (@string_value). Qed.
Print Assumptions C48_string_value.

Theorem C48_read_scalar : forall v,
  (forall b, de_bool v = Some b <-> v = VBool b) /\
  (forall n, de_u32 v = Some n <-> v = VNum (Some n) /\ (n < 2 ^ 32)%N) /\
  (forall s, de_string v = Some s <-> exists us, v = VStr us /\ units us = Some s).
Proof. exact (@read_scalar). Qed.
Print Assumptions C48_read_scalar.

Theorem C48_read_vec : forall A (f : jv -> option A) v l,
  de_vec f v = Some l <-> exists vs, v = VArr vs /\ Forall2 (fun v a => f v = Some a) vs l.
Proof. exact (@read_vec). Qed.
Print Assumptions C48_read_vec.

Theorem C48_read_option : forall A (f : jv -> option A) v o,
  de_option f v = Some o <-> (v = VNull /\ o = None) \/ (v <> VNull /\ exists a, o = Some a /\ f v = Some a).
Proof. exact (@read_option). Qed.
Print Assumptions C48_read_option.

Theorem C49_record_round_trip : forall fc, fc_u32 fc -> from_str de_file_coverage (fc_text fc) = Some fc.
Proof. exact (@record_round_trip). Qed.
Print Assumptions C49_record_round_trip.

Theorem C49_read_file_coverage : forall ms fc, de_file_coverage (VObj ms) = Some fc <->
  Keys ms /\ Field ms "all" de_bool false (fc_all fc) /\ Present ms "path" de_string (fc_path fc) /\
  Present ms "statementMap" (de_map de_range) (fc_statement_map fc) /\ Present ms "fnMap" (de_map de_function) (fc_fn_map fc) /\
  Present ms "branchMap" (de_map de_branch) (fc_branch_map fc) /\ Present ms "s" (de_map de_u32) (fc_s fc) /\
  Present ms "f" (de_map de_u32) (fc_f fc) /\ Present ms "b" (de_map (de_vec de_u32)) (fc_b fc) /\
  Field ms "bT" (de_option (de_map (de_vec de_u32))) None (fc_b_t fc) /\
  Field ms "inputSourceMap" (de_option de_source_map) None (fc_input_source_map fc).
Proof. exact (@read_file_coverage). Qed.
Print Assumptions C49_read_file_coverage.

Theorem C49_read_branch_spec : forall ms b, de_branch (VObj ms) = Some b <->
  Keys ms /\ Field ms "loc" (de_option de_range) None (b_loc b) /\ Present ms "type" de_branch_type (b_type b) /\
  Present ms "locations" (de_vec de_range) (b_locations b) /\ Field ms "line" (de_option de_u32) None (b_line b).
Proof. exact (@read_branch_spec). Qed.
Print Assumptions C49_read_branch_spec.

Theorem C49_read_function : forall ms f, de_function (VObj ms) = Some f <->
  Keys ms /\ Present ms "name" de_string (f_name f) /\ Present ms "decl" de_range (f_decl f) /\
  Present ms "loc" de_range (f_loc f) /\ Present ms "line" de_u32 (f_line f).
Proof. exact (@read_function). Qed.
Print Assumptions C49_read_function.

Theorem C49_read_range_spec : forall ms r, de_range (VObj ms) = Some r <->
  Keys ms /\ Present ms "start" de_location (rstart r) /\ Present ms "end" de_location (rend r).
Proof. exact (@read_range_spec). Qed.
Print Assumptions C49_read_range_spec.

Theorem C49_read_location : forall ms l, de_location (VObj ms) = Some l <->
  Keys ms /\ Present ms "line" de_u32 (line l) /\ Present ms "column" de_u32 (column l).
Proof. exact (@read_location). Qed.
Print Assumptions C49_read_location.

Theorem C49_read_source_map_spec : forall ms s, de_source_map (VObj ms) = Some s <->
  Keys ms /\ Field ms "version" de_u32 3%N (sm_version s) /\ Field ms "file" (de_option de_string) None (sm_file s) /\
  Field ms "sourceRoot" (de_option de_string) None (sm_source_root s) /\ Field ms "sources" (de_vec de_string) [] (sm_sources s) /\
  Field ms "sourcesContent" (de_option (de_vec (de_option de_string))) None (sm_sources_content s) /\
  Field ms "names" (de_vec de_string) [] (sm_names s) /\ Field ms "mappings" de_string "" (sm_mappings s).
Proof. exact (@read_source_map_spec). Qed.
Print Assumptions C49_read_source_map_spec.

Theorem C49_read_branch_type : forall v t, de_branch_type v = Some t <->
  exists us s, (v = VStr us \/ v = VObj [(us, VNull)]) /\ units us = Some s /\
  In (s, t) [("binary-expr", BinaryExpr); ("default-arg", DefaultArg); ("if", BIf); ("switch", BSwitch); ("cond-expr", CondExpr)].
Proof. exact (@read_branch_type). Qed.
Print Assumptions C49_read_branch_type.

Theorem C49_read_table : forall A (f : jv -> option A) ms m, de_map f (VObj ms) = Some m <->
  exists kvs, Forall2 (fun kv p => u32_key (fst kv) = Some (fst p) /\ f (snd kv) = Some (snd p)) ms kvs /\
    im_keys m = rev (nodup N.eq_dec (rev (map fst kvs))) /\ forall k, im_get k m = last_value k kvs.
Proof. exact (@read_table). Qed.
Print Assumptions C49_read_table.

Theorem C49_read_other : forall A (f : jv -> option A) v, (forall ms, v <> VObj ms) -> de_map f v = None.
Proof. exact (@read_other). Qed.
Print Assumptions C49_read_other.

Theorem C49_table_key : forall us n, u32_key us = Some n <-> us = map UByte (list_ascii_of_string (dec n)) /\ is_u32 n.
Proof. exact (@table_key). Qed.
Print Assumptions C49_table_key.

Theorem C49_parse_print : forall j, parse (print j) = Some (embed j).
Proof. exact (@parse_print). Qed.
Print Assumptions C49_parse_print.

Theorem C49_read_record_ex : from_str de_file_coverage
  " { ""path"" : ""a\u00e9\uD83d\ude00\/"", ""x"": [""\ud800"", -1.5e3], ""s"":{""0"":1,""1"":2,""0"":3}, ""f"":{}, ""b"":{""7"":[0,4]},
     ""statementMap"":{""0"":{""end"":{""line"":1,""column"":2},""start"":[3,4]}}, ""fnMap"":{}, ""branchMap"":{""7"":{""type"":""if"",""locations"":[]}} } "
  = Some (mkFC false "aé😀/" [(0%N, mkRange (mkLoc 3 4) (mkLoc 1 2))] []
      [(7%N, mkBranch None BIf [] None)] [(0%N, 3%N); (1%N, 2%N)] [] [(7%N, [0%N; 4%N])] None None).
Proof. exact (@read_record_ex). Qed.
Print Assumptions C49_read_record_ex.

Theorem C49_read_record_bad :
  from_str de_location "{""line"":1}" = None /\ from_str de_location "{""line"":1,""column"":2,""line"":1}" = None /\
  from_str de_location "{""line"":1.0,""column"":2}" = None /\ from_str de_location "{""line"":4294967296,""column"":2}" = None /\
  from_str de_location "{""line"":01,""column"":2}" = None /\ from_str de_location "{""line"":1,""column"":2,}" = None /\
  from_str de_location "[1,2,3]" = None /\ from_str de_location "[1,2] x" = None /\
  from_str de_location "[4294967295,2]" = Some (mkLoc 4294967295 2).
Proof. exact (@read_record_bad). Qed.
Print Assumptions C49_read_record_bad.

