(** The instrumentation options and their deserialization (C44).

    swc-coverage-instrument options/instrument_options.rs:1-49. *)
From Coq Require Import NArith String Ascii List Bool Lia PeanoNat Permutation.
Import ListNotations.
From Verif Require Import Base IndexMap Decimal Oxide Json CovJson JsonParse Serde.
Open Scope string_scope.

(** options/instrument_options.rs:4-18 *)
Record log_options := mkLog { lo_level : option string; lo_trace : bool }.
(** options/instrument_options.rs:20-34 *)
Record options := mkOptions {
  o_variable : string;
  o_compact : bool;
  o_report_logic : bool;
  o_ignore_methods : list string;
  o_source_map : option source_map;
  o_log : log_options;
  o_debug_comment : bool;
  o_exclude : option (list string)
}.
(** options/instrument_options.rs:11-18, 36-49 *)
Definition default_log : log_options := mkLog None false.
Definition default_options : options :=
  mkOptions "__coverage__" false false [] None default_log false None.

Definition de_log (v : jv) : option log_options :=
  let? fs := fields ["level"; "enableTrace"] v in
  match fs with
  | [a; b] =>
      let? l := defaulted (lo_level default_log) (de_option de_string) a in
      let? t := defaulted (lo_trace default_log) de_bool b in
      Some (mkLog l t)
  | _ => None
  end.
Definition de_options (v : jv) : option options :=
  let d := default_options in
  let? fs := fields ["coverageVariable"; "compact"; "reportLogic"; "ignoreClassMethods"; "inputSourceMap"; "instrumentLog";
                     "debugInitialCoverageComment"; "unstableExclude"] v in
  match fs with
  | [a; b; c; e; f; g; h; i] =>
      let? va := defaulted (o_variable d) de_string a in
      let? co := defaulted (o_compact d) de_bool b in
      let? rl := defaulted (o_report_logic d) de_bool c in
      let? ig := defaulted (o_ignore_methods d) (de_vec de_string) e in
      let? sm := defaulted (o_source_map d) (de_option de_source_map) f in
      let? lg := defaulted (o_log d) de_log g in
      let? dc := defaulted (o_debug_comment d) de_bool h in
      let? ex := defaulted (o_exclude d) (de_option (de_vec de_string)) i in
      Some (mkOptions va co rl ig sm lg dc ex)
  | _ => None
  end.
(** [serde_json::from_str::<InstrumentOptions>] *)
Definition decode_options (s : string) : option options := from_str de_options s.

(** ** Objects *)
Theorem read_log : forall ms l, de_log (VObj ms) = Some l <->
  Keys ms /\ Field ms "level" (de_option de_string) None (lo_level l) /\ Field ms "enableTrace" de_bool false (lo_trace l).
Proof.
  intros ms l. unfold de_log. cbn [default_log lo_level lo_trace]. split.
  - intros H. struct_fwd H. cbn [lo_level lo_trace]. split; [field_fwd|split; field_fwd].
  - intros (K & A & B). apply keyed_keys in K as (kvs & K). cbn [fields]. rewrite K. cbn [obind all_some].
    apply (find_slot_field _ _ _ _ _ _ _ K) in A as (a & A & A'), B as (b & B & B').
    rewrite A, B. cbn [obind]. rewrite A', B'. now destruct l.
Qed.
(** An object of options: every key is a proper string; each option is absent and has its default, or is
    given exactly once and with a value of its type.  Other members do not matter. *)
Theorem read_options : forall ms o, de_options (VObj ms) = Some o <->
  Keys ms /\
  Field ms "coverageVariable" de_string "__coverage__" (o_variable o) /\
  Field ms "compact" de_bool false (o_compact o) /\
  Field ms "reportLogic" de_bool false (o_report_logic o) /\
  Field ms "ignoreClassMethods" (de_vec de_string) [] (o_ignore_methods o) /\
  Field ms "inputSourceMap" (de_option de_source_map) None (o_source_map o) /\
  Field ms "instrumentLog" de_log (mkLog None false) (o_log o) /\
  Field ms "debugInitialCoverageComment" de_bool false (o_debug_comment o) /\
  Field ms "unstableExclude" (de_option (de_vec de_string)) None (o_exclude o).
Proof.
  intros ms l. unfold de_options, default_options, default_log.
  cbn [o_variable o_compact o_report_logic o_ignore_methods o_source_map o_log o_debug_comment o_exclude]. split.
  - intros H. struct_fwd H. cbn [o_variable o_compact o_report_logic o_ignore_methods o_source_map o_log o_debug_comment o_exclude].
    repeat (split; [field_fwd|]). field_fwd.
  - intros (K & A & B & C & D & E & F & G & H). apply keyed_keys in K as (kvs & K). cbn [fields]. rewrite K. cbn [obind all_some].
    apply (find_slot_field _ _ _ _ _ _ _ K) in A as (a & A & A'), B as (b & B & B'), C as (c & C & C'), D as (d & D & D'),
      E as (e & E & E'), F as (f & F & F'), G as (g & G & G'), H as (h & H & H').
    rewrite A, B, C, D, E, F, G, H. cbn [obind]. rewrite A', B', C', D', E', F', G', H'. now destruct l.
Qed.
(** ** Arrays: the options in the order of the struct, missing ones at the end have their defaults *)
Lemma spread_nth : forall names l fs, spread names l = Some fs -> (length l <= length names)%nat /\
  fs = map (fun i => match nth_error l i with Some v => Given v | None => NoElement end) (seq 0 (length names)).
Proof.
  induction names as [|k names IH]; intros [|v l] fs H; cbn [spread] in H.
  - injection H as <-. now split.
  - discriminate.
  - destruct (spread names []) as [fs'|] eqn:E; [|discriminate]. injection H as <-. apply IH in E as [_ ->]. split; [cbn; lia|].
    cbn [length seq map nth_error]. f_equal. rewrite <- seq_shift, map_map. apply map_ext. intros i. now destruct i.
  - destruct (spread names l) as [fs'|] eqn:E; [|discriminate]. injection H as <-. apply IH in E as [L ->]. split; [cbn; lia|].
    cbn [length seq map nth_error]. f_equal. rewrite <- seq_shift, map_map. reflexivity.
Qed.
Lemma spread_some : forall names l, (length l <= length names)%nat -> spread names l =
  Some (map (fun i => match nth_error l i with Some v => Given v | None => NoElement end) (seq 0 (length names))).
Proof.
  intros names l H. destruct (spread names l) as [fs|] eqn:E; [apply spread_nth in E as [_ ->]; reflexivity|].
  exfalso. revert l H E. induction names as [|k names IH]; intros [|v l] H E; cbn in *; try discriminate; try lia.
  - destruct (spread names []) eqn:E'; [discriminate|]. eapply IH; [|exact E']. cbn. lia.
  - destruct (spread names l) eqn:E'; [discriminate|]. eapply IH; [|exact E']. lia.
Qed.
Lemma place_slot : forall A l i (f : jv -> option A) d x,
  Place l i f d x <-> defaulted d f match nth_error l i with Some v => Given v | None => NoElement end = Some x.
Proof.
  intros A l i f d x. unfold Place. destruct (nth_error l i); cbn [defaulted]; [reflexivity|].
  split; [now intros ->|intros H; now injection H].
Qed.
Theorem read_options_array : forall l o, de_options (VArr l) = Some o <->
  (length l <= 8)%nat /\
  Place l 0 de_string "__coverage__" (o_variable o) /\ Place l 1 de_bool false (o_compact o) /\
  Place l 2 de_bool false (o_report_logic o) /\ Place l 3 (de_vec de_string) [] (o_ignore_methods o) /\
  Place l 4 (de_option de_source_map) None (o_source_map o) /\ Place l 5 de_log (mkLog None false) (o_log o) /\
  Place l 6 de_bool false (o_debug_comment o) /\ Place l 7 (de_option (de_vec de_string)) None (o_exclude o).
Proof.
  intros l o. unfold de_options, default_options, default_log.
  cbn [o_variable o_compact o_report_logic o_ignore_methods o_source_map o_log o_debug_comment o_exclude fields].
  rewrite !place_slot. split.
  - destruct (spread _ l) as [fs|] eqn:E; [|discriminate]. apply spread_nth in E as [L ->]. cbn [length seq map obind].
    intros H. peel_slots H. injection H as <-.
    cbn [o_variable o_compact o_report_logic o_ignore_methods o_source_map o_log o_debug_comment o_exclude]. auto 10.
  - intros (L & A & B & C & D & E & F & G & H). rewrite spread_some by exact L. cbn [length seq map obind].
    rewrite A, B, C, D, E, F, G, H. now destruct o.
Qed.
Theorem read_options_other : forall v, match v with VObj _ | VArr _ => False | _ => True end -> de_options v = None.
Proof. intros []; cbn; (contradiction || reflexivity). Qed.

(** ** Consequences *)
(** The order of the members does not matter. *)
Lemma field_perm : forall A ms ms' k (f : jv -> option A) d x, Permutation ms ms' -> Field ms k f d x -> Field ms' k f d x.
Proof.
  intros A ms ms' k f d x P [[-> H]|(l1 & us & v & l2 & -> & U & D & H)].
  - left. split; [reflexivity|]. intros us v I. apply (H us v). apply (Permutation_in _ (Permutation_sym P) I).
  - right. assert (I : In (us, v) ms') by (apply (Permutation_in _ P), in_app_iff; right; now left).
    apply in_split in I as (r1 & r2 & ->). exists r1, us, v, r2. split; [reflexivity|]. split; [exact U|]. split; [exact D|].
    apply Permutation_app_inv in P. intros us' v' I. apply (H us' v'). apply (Permutation_in _ (Permutation_sym P) I).
Qed.
Theorem options_order : forall ms ms', Permutation ms ms' -> de_options (VObj ms) = de_options (VObj ms').
Proof.
  assert (Q : forall ms ms' o, Permutation ms ms' -> de_options (VObj ms) = Some o -> de_options (VObj ms') = Some o).
  { intros ms ms' o P H. apply read_options in H as (K & A & B & C & D & E & F & G & H). apply read_options.
    split; [|repeat (split; [eapply field_perm; eassumption|]); eapply field_perm; eassumption].
    intros us v I. apply (K us v). apply (Permutation_in _ (Permutation_sym P) I). }
  intros ms ms' P. destruct (de_options (VObj ms)) as [o|] eqn:E; [symmetry; eapply Q; eassumption|].
  destruct (de_options (VObj ms')) as [o|] eqn:E'; [|reflexivity]. rewrite (Q _ _ _ (Permutation_sym P) E') in E. discriminate.
Qed.
(** A member that is not an option does not matter, whatever its value. *)
Theorem unknown_member : forall ms us k v, units us = Some k ->
  ~ In k ["coverageVariable"; "compact"; "reportLogic"; "ignoreClassMethods"; "inputSourceMap"; "instrumentLog";
          "debugInitialCoverageComment"; "unstableExclude"] ->
  de_options (VObj ((us, v) :: ms)) = de_options (VObj ms).
Proof.
  intros ms us k v U N. unfold de_options. cbn [fields]. unfold keyed. cbn [all_some fst snd]. rewrite U. cbn [option_map obind].
  fold (keyed ms). destruct (keyed ms) as [kvs|]; [|reflexivity]. cbn [obind].
  assert (F : forall k', In k' ["coverageVariable"; "compact"; "reportLogic"; "ignoreClassMethods"; "inputSourceMap"; "instrumentLog";
          "debugInitialCoverageComment"; "unstableExclude"] -> find_slot ((k, v) :: kvs) k' = find_slot kvs k').
  { intros k' I. unfold find_slot. cbn [filter fst]. destruct (String.eqb_spec k' k) as [->|]; [contradiction|reflexivity]. }
  cbn [all_some]. rewrite !F by (cbn; auto 10). reflexivity.
Qed.
(** An option given twice, or with a value of another type, makes the whole text invalid. *)
Theorem repeated_option : forall ms us1 v1 us2 v2 l1 l2 l3 k,
  ms = (l1 ++ (us1, v1) :: l2 ++ (us2, v2) :: l3)%list -> units us1 = Some k -> units us2 = Some k ->
  In k ["coverageVariable"; "compact"; "reportLogic"; "ignoreClassMethods"; "inputSourceMap"; "instrumentLog";
        "debugInitialCoverageComment"; "unstableExclude"] ->
  de_options (VObj ms) = None.
Proof.
  intros ms us1 v1 us2 v2 l1 l2 l3 k E U1 U2 I. destruct (de_options (VObj ms)) as [o|] eqn:D; [|reflexivity]. exfalso.
  assert (Q : forall A (f : jv -> option A) d x, ~ Field ms k f d x).
  { intros A f d x [[_ H]|(r1 & us & v & r2 & E' & U & _ & H)].
    - apply (H us1 v1); [|exact U1]. rewrite E. apply in_app_iff. right. now left.
    - rewrite E in E'. assert (T : length (filter (fun kv : list sunit * jv => match units (fst kv) with Some k' => String.eqb k k' | None => false end)
          (l1 ++ (us1, v1) :: l2 ++ (us2, v2) :: l3)) = 1%nat).
      { rewrite E', filter_app. cbn [filter fst]. rewrite U, String.eqb_refl.
        rewrite (proj2 (filter_none r1 k)), (proj2 (filter_none r2 k)); [reflexivity| |]; intros a b Hin; apply (H a b), in_app_iff; auto. }
      rewrite filter_app in T. cbn [filter fst] in T. rewrite U1, String.eqb_refl, filter_app in T. cbn [filter fst] in T.
      rewrite U2, String.eqb_refl in T. rewrite !app_length in T. cbn [length] in T. rewrite app_length in T. cbn [length] in T. lia. }
  apply read_options in D as (_ & A & B & C & D & F & G & H & J).
  repeat (destruct I as [<-|I]; [eapply Q; eassumption|]). destruct I.
Qed.

(** ** Every option value has a text *)
Definition log_json (l : log_options) : json :=
  JObj [("level", opt_json JStr (lo_level l)); ("enableTrace", JBool (lo_trace l))].
(** [#[derive(Serialize)]] *)
Definition options_json (o : options) : json :=
  JObj [("coverageVariable", JStr (o_variable o)); ("compact", JBool (o_compact o)); ("reportLogic", JBool (o_report_logic o));
        ("ignoreClassMethods", strs_json (o_ignore_methods o)); ("inputSourceMap", opt_json source_map_json (o_source_map o));
        ("instrumentLog", log_json (o_log o)); ("debugInitialCoverageComment", JBool (o_debug_comment o));
        ("unstableExclude", opt_json strs_json (o_exclude o))].
Theorem options_round_trip : forall o, (forall s, o_source_map o = Some s -> is_u32 (sm_version s)) ->
  decode_options (print (options_json o)) = Some o.
Proof.
  intros [va co rl ig sm [lv tr] dc ex] H. cbn in H. unfold decode_options, from_str. rewrite parse_print. cbn [obind].
  unfold de_options, options_json. rewrite fields_embed. unfold find_slot. slots. cbn [defaulted].
  cbn [o_variable o_compact o_report_logic o_ignore_methods o_source_map o_log o_debug_comment o_exclude].
  rewrite de_string_embed. cbn [obind]. cbn [embed de_bool obind].
  rewrite de_strs_embed. cbn [obind].
  rewrite (de_option_embed _ de_source_map source_map_json (fun s => is_u32 (sm_version s)) sm de_source_map_embed eq_refl H). cbn [obind].
  assert (L : de_log (embed (log_json (mkLog lv tr))) = Some (mkLog lv tr)).
  { unfold de_log, log_json. rewrite fields_embed. unfold find_slot. slots. cbn [defaulted lo_level lo_trace].
    rewrite (de_option_embed _ de_string JStr (fun _ => True) lv); auto. intros; apply de_string_embed. }
  rewrite L. cbn [obind].
  rewrite (de_option_embed _ (de_vec de_string) strs_json (fun _ => True) ex); auto. intros; apply de_strs_embed.
Qed.
Example decode_ex :
  decode_options "{}" = Some default_options /\ decode_options " [ ] " = Some default_options /\
  decode_options "{""reportLogic"": true, ""coverageVariable"": ""__cova__"", ""foo"": {""a"": [1, null]}, ""unstableExclude"": [""**/*.test.js""]}"
  = Some (mkOptions "__cova__" false true [] None (mkLog None false) false (Some ["**/*.test.js"])) /\
  decode_options "{""instrumentLog"": {""level"": ""trace""}, ""inputSourceMap"": {""sources"": [""a.js""]}}"
  = Some (mkOptions "__coverage__" false false [] (Some (mkSourceMap 3 None None ["a.js"] None [] "")) (mkLog (Some "trace") false) false None) /\
  decode_options "{""unstableExclude"": null, ""inputSourceMap"": null}" = Some default_options /\
  decode_options "{""compact"": null}" = None /\ decode_options "{""compact"": ""true""}" = None /\
  decode_options "{""unstableExclude"": ""**/*.test.js""}" = None /\
  decode_options "{""compact"": true, ""compact"": true}" = None /\ decode_options "{""compact"": true,}" = None /\
  decode_options "null" = None /\ decode_options "" = None /\ decode_options "{} {}" = None.
Proof. repeat split; vm_compute; reflexivity. Qed.
