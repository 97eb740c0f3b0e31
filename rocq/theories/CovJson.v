(** The JSON text of a coverage record ([#[derive(Serialize)]] of the istanbul-oxide types),
    reading a record back from such a value, and the content hash.

    istanbul-oxide file_coverage.rs:127-143, types.rs:6-43, range.rs:3-18, source_map.rs:3-16. *)
From Coq Require Import NArith String Ascii List Bool Lia DecimalString DecimalN.
Import ListNotations.
From Verif Require Import Base IndexMap Decimal Oxide Json SipHash.
Open Scope string_scope.

(** ** Serialization *)
Definition loc_json (l : location) : json :=
  JObj [("line", JNum (line l)); ("column", JNum (column l))].
Definition range_json (r : range) : json :=
  JObj [("start", loc_json (rstart r)); ("end", loc_json (rend r))].
Definition func_json (f : func) : json :=
  JObj [("name", JStr (f_name f)); ("decl", range_json (f_decl f)); ("loc", range_json (f_loc f));
        ("line", JNum (f_line f))].
Definition opt_json {A} (f : A -> json) (o : option A) : json :=
  match o with Some a => f a | None => JNull end.
(** types.rs:36-43: no [skip_serializing_if], so an absent value is written as null *)
Definition branch_json (b : branch) : json :=
  JObj [("loc", opt_json range_json (b_loc b)); ("type", JStr (branch_type_str (b_type b)));
        ("locations", JArr (map range_json (b_locations b))); ("line", opt_json JNum (b_line b))].
Definition map_json {A} (f : A -> json) (m : imap N A) : json :=
  JObj (map (fun kv => (dec (fst kv), f (snd kv))) m).
Definition nums_json (l : list N) : json := JArr (map JNum l).
(** [skip_serializing_if = "Option::is_none"] *)
Definition field_opt {A} (k : string) (f : A -> json) (o : option A) : list (string * json) :=
  match o with Some a => [(k, f a)] | None => [] end.
Definition strs_json (l : list string) : json := JArr (map JStr l).
Definition source_map_json (s : source_map) : json :=
  JObj (("version", JNum (sm_version s))
        :: field_opt "file" JStr (sm_file s)
        ++ field_opt "sourceRoot" JStr (sm_source_root s)
        ++ ("sources", strs_json (sm_sources s))
        :: field_opt "sourcesContent" (fun l => JArr (map (opt_json JStr) l)) (sm_sources_content s)
        ++ [("names", strs_json (sm_names s)); ("mappings", JStr (sm_mappings s))])%list.
Definition fc_fields (fc : file_coverage) : list (string * json) :=
  (("all", JBool (fc_all fc)) :: ("path", JStr (fc_path fc))
   :: ("statementMap", map_json range_json (fc_statement_map fc))
   :: ("fnMap", map_json func_json (fc_fn_map fc))
   :: ("branchMap", map_json branch_json (fc_branch_map fc))
   :: ("s", map_json JNum (fc_s fc)) :: ("f", map_json JNum (fc_f fc))
   :: ("b", map_json nums_json (fc_b fc))
   :: field_opt "bT" (map_json nums_json) (fc_b_t fc)
   ++ field_opt "inputSourceMap" source_map_json (fc_input_source_map fc))%list.
Definition fc_json (fc : file_coverage) : json := JObj (fc_fields fc).
(** [serde_json::to_string(coverage_data)] *)
Definition fc_text (fc : file_coverage) : string := print (fc_json fc).
(** create_coverage_data_object.rs:416-422 *)
Definition fc_hash (fc : file_coverage) : string := dec (hash_str (fc_text fc)).

(** ** Reading a record *)
Definition obind {A B} (o : option A) (k : A -> option B) : option B :=
  match o with Some a => k a | None => None end.
Notation "'let?' x ':=' m 'in' k" := (obind m (fun x => k))
  (at level 200, x pattern, m at level 100, k at level 200, right associativity).
Fixpoint prop (k : string) (o : list (string * json)) : option json :=
  match o with [] => None | (k', x) :: o' => if String.eqb k k' then Some x else prop k o' end.
Definition member (j : json) (k : string) : option json := match j with JObj o => prop k o | _ => None end.
Fixpoint all_some {A B} (f : A -> option B) (l : list A) : option (list B) :=
  match l with
  | [] => Some []
  | a :: l' => let? b := f a in let? bs := all_some f l' in Some (b :: bs)
  end.
Definition read_num (j : json) : option N := match j with JNum n => Some n | _ => None end.
Definition read_str (j : json) : option string := match j with JStr s => Some s | _ => None end.
Definition read_bool (j : json) : option bool := match j with JBool b => Some b | _ => None end.
Definition read_list {A} (f : json -> option A) (j : json) : option (list A) :=
  match j with JArr l => all_some f l | _ => None end.
(** A property that may be missing or null *)
Definition read_opt {A} (f : json -> option A) (o : option json) : option (option A) :=
  match o with
  | None => Some None
  | Some JNull => Some None
  | Some j => let? a := f j in Some (Some a)
  end.
Definition read_nullable {A} (f : json -> option A) (j : json) : option (option A) := read_opt f (Some j).
Definition read_loc (j : json) : option location :=
  let? l := obind (member j "line") read_num in let? c := obind (member j "column") read_num in Some (mkLoc l c).
Definition read_range (j : json) : option range :=
  let? s := obind (member j "start") read_loc in let? e := obind (member j "end") read_loc in Some (mkRange s e).
Definition read_func (j : json) : option func :=
  let? n := obind (member j "name") read_str in let? d := obind (member j "decl") read_range in
  let? l := obind (member j "loc") read_range in let? k := obind (member j "line") read_num in
  Some (mkFunc n d l k).
Definition read_type (j : json) : option branch_type :=
  let? s := read_str j in
  if s =? "binary-expr" then Some BinaryExpr else if s =? "default-arg" then Some DefaultArg
  else if s =? "if" then Some BIf else if s =? "switch" then Some BSwitch
  else if s =? "cond-expr" then Some CondExpr else None.
(** A missing [locations] means none (create_coverage_data_object.rs:133 leaves it out). *)
Definition read_branch (j : json) : option branch :=
  let? l := read_opt read_range (member j "loc") in let? t := obind (member j "type") read_type in
  let? ls := read_opt (read_list read_range) (member j "locations") in
  let? k := read_opt read_num (member j "line") in
  Some (mkBranch l t (match ls with Some ls => ls | None => [] end) k).
(** Property keys that are canonical decimal numbers *)
Definition num_key (s : string) : option N :=
  match NilEmpty.uint_of_string s with
  | Some u => let n := N.of_uint u in if String.eqb (dec n) s then Some n else None
  | None => None
  end.
Definition read_map {A} (f : json -> option A) (j : json) : option (imap N A) :=
  match j with
  | JObj o => all_some (fun kv => let? n := num_key (fst kv) in let? a := f (snd kv) in Some (n, a)) o
  | _ => None
  end.
Definition read_source_map (j : json) : option source_map :=
  let? v := obind (member j "version") read_num in
  let? f := read_opt read_str (member j "file") in
  let? r := read_opt read_str (member j "sourceRoot") in
  let? s := obind (member j "sources") (read_list read_str) in
  let? c := read_opt (read_list (read_nullable read_str)) (member j "sourcesContent") in
  let? n := obind (member j "names") (read_list read_str) in
  let? m := obind (member j "mappings") read_str in
  Some (mkSourceMap v f r s c n m).
Definition read_fc (j : json) : option file_coverage :=
  let? a := obind (member j "all") read_bool in
  let? p := obind (member j "path") read_str in
  let? sm := obind (member j "statementMap") (read_map read_range) in
  let? fm := obind (member j "fnMap") (read_map read_func) in
  let? bm := obind (member j "branchMap") (read_map read_branch) in
  let? s := obind (member j "s") (read_map read_num) in
  let? f := obind (member j "f") (read_map read_num) in
  let? b := obind (member j "b") (read_map (read_list read_num)) in
  let? bt := read_opt (read_map (read_list read_num)) (member j "bT") in
  let? i := read_opt read_source_map (member j "inputSourceMap") in
  Some (mkFC a p sm fm bm s f b bt i).

Lemma num_key_dec : forall n, num_key (dec n) = Some n.
Proof.
  intros n. unfold num_key, dec at 1. rewrite NilEmpty.usu, DecimalN.Unsigned.of_to. cbv zeta.
  now rewrite String.eqb_refl.
Qed.
Lemma num_key_some : forall s n, num_key s = Some n -> s = dec n.
Proof.
  intros s n. unfold num_key. destruct (NilEmpty.uint_of_string s); [|discriminate]. cbv zeta.
  destruct (String.eqb_spec (dec (N.of_uint u)) s) as [E|]; [|discriminate]. intros H. injection H as <-. now symmetry.
Qed.
Lemma all_some_map : forall A B (f : B -> option A) (g : A -> B) l, (forall a, f (g a) = Some a) ->
  all_some f (map g l) = Some l.
Proof. intros A B f g l H. induction l as [|a l IH]; [reflexivity|]. cbn. now rewrite H, IH. Qed.
Lemma read_map_json : forall A (f : json -> option A) g (m : imap N A), (forall a, f (g a) = Some a) ->
  read_map f (map_json g m) = Some m.
Proof.
  intros A f g m H. apply all_some_map. intros [k a]. cbn [fst snd]. now rewrite num_key_dec, H.
Qed.
Lemma read_opt_some : forall A (f : json -> option A) (g : A -> json) a, f (g a) = Some a -> f JNull = None ->
  read_opt f (Some (g a)) = Some (Some a).
Proof. intros A f g a H N. unfold read_opt. destruct (g a); [congruence| | | | | ]; now rewrite H. Qed.
Lemma read_opt_json : forall A (f : json -> option A) g (o : option A), (forall a, f (g a) = Some a) -> f JNull = None ->
  read_opt f (Some (opt_json g o)) = Some o.
Proof. intros A f g [a|] H N; [now apply read_opt_some|reflexivity]. Qed.
Lemma read_loc_json : forall l, read_loc (loc_json l) = Some l.
Proof. intros []. reflexivity. Qed.
Lemma read_range_json : forall r, read_range (range_json r) = Some r.
Proof. intros [[] []]. reflexivity. Qed.
Lemma read_func_json : forall f, read_func (func_json f) = Some f.
Proof. intros [n [[] []] [[] []] l]. reflexivity. Qed.
Lemma read_type_json : forall t, read_type (JStr (branch_type_str t)) = Some t.
Proof. intros []; reflexivity. Qed.
Lemma read_nums_json : forall l, read_list read_num (nums_json l) = Some l.
Proof. intros l. cbn. now apply all_some_map. Qed.
Lemma read_strs_json : forall l, read_list read_str (strs_json l) = Some l.
Proof. intros l. cbn. now apply all_some_map. Qed.
Lemma read_ranges_json : forall l, read_list read_range (JArr (map range_json l)) = Some l.
Proof. intros l. cbn [read_list]. apply all_some_map. apply read_range_json. Qed.
Lemma read_branch_json : forall b, read_branch (branch_json b) = Some b.
Proof.
  intros [l t ls n]. unfold read_branch, branch_json, member. cbn [prop String.eqb Ascii.eqb Bool.eqb b_loc b_type b_locations b_line].
  rewrite (read_opt_json _ read_range range_json l read_range_json eq_refl).
  cbn [obind]. rewrite read_type_json. cbn [obind].
  rewrite (read_opt_some _ (read_list read_range) (fun l => JArr (map range_json l)) ls (read_ranges_json ls) eq_refl).
  cbn [obind].
  rewrite (read_opt_json _ read_num JNum n (fun _ => eq_refl) eq_refl). reflexivity.
Qed.
Lemma read_contents_json : forall l, read_list (read_nullable read_str) (JArr (map (opt_json JStr) l)) = Some l.
Proof. intros l. cbn [read_list]. apply all_some_map. intros [s|]; reflexivity. Qed.
Lemma read_source_map_json : forall s, read_source_map (source_map_json s) = Some s.
Proof.
  intros [v f r s c n m]. unfold read_source_map, source_map_json, member.
  cbn [sm_version sm_file sm_source_root sm_sources sm_sources_content sm_names sm_mappings].
  destruct f as [f|], r as [r|], c as [c|];
    cbn [app field_opt prop String.eqb Ascii.eqb Bool.eqb obind read_num read_str read_opt];
    rewrite !read_strs_json; cbn [obind];
    try (rewrite read_contents_json; cbn [obind]); reflexivity.
Qed.
Theorem read_fc_json : forall fc, read_fc (fc_json fc) = Some fc.
Proof.
  intros [a p sm fm bm s f b bt i]. unfold read_fc, fc_json, fc_fields, member.
  cbn [fc_all fc_path fc_statement_map fc_fn_map fc_branch_map fc_s fc_f fc_b fc_b_t fc_input_source_map].
  destruct bt as [bt|], i as [i|];
    cbn [app field_opt prop String.eqb Ascii.eqb Bool.eqb obind read_bool read_str];
    rewrite (read_map_json _ _ _ sm read_range_json); cbn [obind];
    rewrite (read_map_json _ _ _ fm read_func_json); cbn [obind];
    rewrite (read_map_json _ _ _ bm read_branch_json); cbn [obind];
    rewrite (read_map_json _ read_num JNum s (fun _ => eq_refl)); cbn [obind];
    rewrite (read_map_json _ read_num JNum f (fun _ => eq_refl)); cbn [obind];
    rewrite (read_map_json _ _ _ b read_nums_json); cbn [obind];
    try (rewrite (read_opt_some _ (read_map (read_list read_num)) (map_json nums_json) bt (read_map_json _ _ _ bt read_nums_json) eq_refl); cbn [obind]);
    try (rewrite (read_opt_some _ read_source_map source_map_json i (read_source_map_json i) eq_refl); cbn [obind]);
    reflexivity.
Qed.

(** Two records have the same JSON text only if they are the same record. *)
Theorem fc_text_injective : forall a b, fc_text a = fc_text b -> a = b.
Proof.
  intros a b H. apply print_injective in H. apply (f_equal read_fc) in H. rewrite !read_fc_json in H. now injection H.
Qed.
(** Distinct records with the same content hash are a collision of the 64-bit hash function on
    two distinct texts. *)
Theorem fc_hash_collision : forall a b, fc_hash a = fc_hash b -> a <> b ->
  fc_text a <> fc_text b /\ hash_str (fc_text a) = hash_str (fc_text b).
Proof.
  intros a b H N. split; [|now apply dec_inj in H]. intros E. now apply fc_text_injective in E.
Qed.
Definition emotion_fc : file_coverage :=
  mkFC false "test-emotion.js" [(0%N, range_new 1 36 4 38)] [] [] [(0%N, 0%N)] [] [] None None.
(** The hash printed in the repository's snapshot of test-emotion.js *)
Example fc_hash_ex : fc_hash emotion_fc = "15339889637910252771".
Proof. vm_compute. reflexivity. Qed.
(** spec: empty record ("anon", report_logic false), create_coverage_data_object.rs:484-496 *)
Example fc_hash_empty : fc_hash (fc_empty "anon" false) = "2749072808032864045".
Proof. vm_compute. reflexivity. Qed.
Example fc_text_ex : fc_text emotion_fc =
  "{""all"":false,""path"":""test-emotion.js"",""statementMap"":{""0"":{""start"":{""line"":1,""column"":36},""end"":{""line"":4,""column"":38}}},""fnMap"":{},""branchMap"":{},""s"":{""0"":0},""f"":{},""b"":{}}".
Proof. reflexivity. Qed.
