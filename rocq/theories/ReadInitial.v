(** C58: the initial coverage can be read back from the emitted code.

    [readInitialCoverage] (spec/util/read-coverage.ts:66-146) looks for the function with the schema marker, reads its variables
    [path], [hash], [gcv] and [coverageData] and rebuilds the record from the object literal; the test-suite compares it with the
    record of the debug comment (spec/util/verifier.ts:145-149). *)
From Coq Require Import NArith String Ascii List Bool Lia PeanoNat Permutation.
Import ListNotations.
From Verif Require Import Base IndexMap Decimal Oxide SipHash SourceCov Hints Ast Visitor VisitorEx Erase Counting CountingRoot
  Json CovJson DataObject Template Runtime Options Plugin Produced DebugComment Emitted.
Open Scope string_scope.

(** ** The reader *)
(** read-coverage.ts:107-138 [setPropertiesRecursive] with the value it assigns, if any.  A string or number literal has the
    value the parser reads from its text; a null literal has no [value], [properties] or [elements].  An assignment
    beyond the end of an array (a hole) is not modelled. *)
Fixpoint set_value (l : lit) : option (option json) :=
  match l with
  | LNull => Some None
  | LBool b => Some (Some (JBool b))
  | LNum n raw => let? n := num_value n raw in Some (Some (JNum n))
  | LStr v raw => let? s := str_value v raw in Some (Some (JStr s))
  | LObj o => let? o := (fix go (o : list (key * lit)) (acc : list (string * json)) : option (list (string * json)) :=
      match o with
      | [] => Some acc
      | (k, x) :: o' => let? n := key_value k in let? v := set_value x in
          go o' (match v with Some v => obj_put n v acc | None => acc end)
      end) o [] in
      Some (Some (JObj o))
  | LArr l => let? vs := (fix go (l : list lit) (idx : nat) (acc : list json) : option (list json) :=
      match l with
      | [] => Some acc
      | x :: l' =>
          let? v := set_value x in
          match x, v with
          | LObj _, Some v =>
              if (idx <? length acc)%nat then go l' (S idx) (firstn idx acc ++ v :: skipn (S idx) acc)%list
              else if (idx =? length acc)%nat then go l' (S idx) (acc ++ [v])%list else None
          | LArr _, _ => go l' (S idx) acc
          | _, Some v => go l' (S idx) (acc ++ [v])%list
          | _, None => go l' (S idx) acc
          end
      end) l 0%nat [] in
      Some (Some (JArr vs))
  end.
(** What is read: the four variables, and the data without the marker and the hash (140-143) *)
Record initial := mkInitial { in_path : json; in_hash : json; in_gcv : json; in_data : json }.
Definition binding (x : string) (body : list tstmt) : option texpr :=
  match find (fun s => match s with SVar y _ => String.eqb y x | _ => false end) body with Some (SVar _ v) => Some v | _ => None end.
Definition value_of (v : texpr) : option json :=
  match v with XStr s => Some (JStr s) | XData l => let? v := set_value l in v | _ => None end.
Definition remove (k : string) (j : json) : json :=
  match j with JObj o => JObj (filter (fun kv => negb (String.eqb (fst kv) k)) o) | _ => j end.
(** 35-63 [CoverageReadVisitor]: a property of an object literal with the marker's name and value *)
Definition marked (body : list tstmt) : bool :=
  existsb (fun s => match s with
    | SVar _ (XData (LObj o)) => existsb (fun kv => match kv with
        | (KeyIdent k, LStr v raw) => String.eqb k COVERAGE_MAGIC_KEY && match str_value v raw with Some s => String.eqb s COVERAGE_MAGIC_VALUE | None => false end
        | _ => false
        end) o
    | _ => false
    end) body.
(** The last marked function, read-coverage.ts:66-146 *)
Definition read_initial (fns : list fn_decl) : option initial :=
  let? f := find (fun f => marked (fd_body f)) (rev fns) in
  let? p := let? b := binding "path" (fd_body f) in value_of b in
  let? h := let? b := binding "hash" (fd_body f) in value_of b in
  let? g := let? b := binding "gcv" (fd_body f) in value_of b in
  let? d := let? b := binding "coverageData" (fd_body f) in value_of b in
  Some (mkInitial p h g (remove "hash" (remove COVERAGE_MAGIC_KEY d))).

(** chai's [deepEqual] on such values: objects with the same properties in any order *)
Inductive deep : json -> json -> Prop :=
| D_null : deep JNull JNull
| D_bool b : deep (JBool b) (JBool b)
| D_num n : deep (JNum n) (JNum n)
| D_str s : deep (JStr s) (JStr s)
| D_arr a b : Forall2 deep a b -> deep (JArr a) (JArr b)
| D_obj a b b' : Permutation b b' -> Forall2 (fun x y => fst x = fst y /\ deep (snd x) (snd y)) a b' -> deep (JObj a) (JObj b).

(** ** Unfolding *)
Fixpoint set_list (l : list lit) (idx : nat) (acc : list json) : option (list json) :=
  match l with
  | [] => Some acc
  | x :: l' =>
      let? v := set_value x in
      match x, v with
      | LObj _, Some v =>
          if (idx <? length acc)%nat then set_list l' (S idx) (firstn idx acc ++ v :: skipn (S idx) acc)%list
          else if (idx =? length acc)%nat then set_list l' (S idx) (acc ++ [v])%list else None
      | LArr _, _ => set_list l' (S idx) acc
      | _, Some v => set_list l' (S idx) (acc ++ [v])%list
      | _, None => set_list l' (S idx) acc
      end
  end.
Fixpoint set_props (o : list (key * lit)) (acc : list (string * json)) : option (list (string * json)) :=
  match o with
  | [] => Some acc
  | (k, x) :: o' => let? n := key_value k in let? v := set_value x in
      set_props o' (match v with Some v => obj_put n v acc | None => acc end)
  end.
Lemma set_value_arr : forall l, set_value (LArr l) = let? vs := set_list l 0 [] in Some (Some (JArr vs)).
Proof. reflexivity. Qed.
Lemma set_value_obj : forall o, set_value (LObj o) = let? o := set_props o [] in Some (Some (JObj o)).
Proof. reflexivity. Qed.

(** ** Values of the literals *)
Definition sets (l : lit) (j : json) : Prop := set_value l = Some (Some j).
Lemma sets_num : forall n, sets (num_lit n) (JNum n).
Proof. intros n. pose proof (eval_num n) as H. unfold sets, num_lit in *. cbn [eval set_value] in *. destruct (num_value n (Some (dec n))); [|discriminate]. cbn [obind] in *. now injection H as ->. Qed.
Lemma sets_str : forall s, plain s -> sets (str_lit s) (JStr s).
Proof. intros s H. unfold sets, str_lit. cbn [set_value]. now rewrite (str_value_plain s H). Qed.
Lemma sets_dummy : forall s, sets (dummy_str s) (JStr s).
Proof. reflexivity. Qed.
Lemma sets_map : forall A (f : A -> lit) (g : A -> json) (m : imap N A),
  Forall (fun kv => sets (f (snd kv)) (g (snd kv))) m -> sets (map_lit f m) (map_json g (key_sort m)).
Proof.
  intros A f g m H. unfold sets, map_lit. rewrite set_value_obj.
  assert (K : forall acc, set_props (map (fun kv => str_prop (dec (fst kv)) (f (snd kv))) m)
      (map (fun kv => (dec (fst kv), g (snd kv))) acc)
    = Some (map (fun kv => (dec (fst kv), g (snd kv))) (key_puts m acc))).
  { induction H as [|[k v] m Hv _ IH]; intros acc; [reflexivity|].
    cbn [map set_props fst snd str_prop key_value key_puts] in *. rewrite (str_value_plain _ (plain_dec k)). cbn [obind].
    unfold sets in Hv. rewrite Hv. cbn [obind]. now rewrite obj_put_dec, IH. }
  specialize (K []). cbn [map] in K. rewrite K. reflexivity.
Qed.
Lemma sets_map_all : forall A (f : A -> lit) (g : A -> json) (m : imap N A),
  (forall a, sets (f a) (g a)) -> sets (map_lit f m) (map_json g (key_sort m)).
Proof. intros A f g m H. apply sets_map. apply Forall_forall. intros kv _. apply H. Qed.
(** Arrays without null and nested arrays *)
Lemma sets_list : forall A (f : A -> lit) (g : A -> json) l, (forall a, sets (f a) (g a)) ->
  (forall a, match f a with LArr _ => False | _ => True end) -> sets (LArr (map f l)) (JArr (map g l)).
Proof.
  intros A f g l H Ha. unfold sets. rewrite set_value_arr.
  assert (K : forall acc, set_list (map f l) (length acc) acc = Some (acc ++ map g l)%list).
  { induction l as [|a l IH]; intros acc; [now rewrite app_nil_r|]. cbn [map set_list]. rewrite (H a). cbn [obind].
    specialize (Ha a). specialize (IH (acc ++ [g a])%list). rewrite app_length in IH. cbn [length] in IH.
    rewrite Nat.add_1_r, <- app_assoc in IH. cbn [app] in IH.
    destruct (f a); try contradiction; try exact IH. rewrite Nat.ltb_irrefl, Nat.eqb_refl. exact IH. }
  specialize (K []). cbn [length app] in K. rewrite K. reflexivity.
Qed.
Lemma sets_range : forall r, sets (range_lit r) (range_json r).
Proof.
  intros [[l1 c1] [l2 c2]]. unfold sets, range_lit. cbn [rstart rend line column]. rewrite set_value_obj. cbn [set_props ident_prop key_value obind].
  rewrite !set_value_obj. cbn [set_props ident_prop key_value obind]. rewrite !sets_num. reflexivity.
Qed.
Lemma sets_func : forall f, plain (f_name f) -> sets (func_lit f) (func_json f).
Proof.
  intros [nm d l ln] H. cbn in H. unfold sets, func_lit. rewrite set_value_obj. cbn [f_name f_decl f_loc f_line set_props ident_prop key_value obind].
  rewrite (sets_str nm H), !sets_range, sets_num. reflexivity.
Qed.
Lemma sets_nums : forall l, sets (nums_lit l) (nums_json l).
Proof. intros l. apply sets_list; [apply sets_num|]. intros a. exact I. Qed.
Lemma sets_branch : forall b, sets (branch_lit b) (branch_value b).
Proof.
  intros [l t ls n]. unfold sets, branch_lit, branch_value. rewrite set_value_obj. cbn [b_loc b_type b_locations b_line].
  assert (R : forall r ls, sets (LArr (map range_lit (r :: ls))) (JArr (map range_json (r :: ls)))).
  { intros. apply sets_list; [apply sets_range|]. intros a. exact I. }
  destruct l as [l|], ls as [|r ls], n as [n|]; cbn [app set_props ident_prop key_value obind field_opt];
    rewrite ?sets_range, ?(sets_str _ (plain_type t)), ?sets_num; cbn [obind]; rewrite ?R; cbn [obind]; rewrite ?sets_num; reflexivity.
Qed.
(** A null among the sources is lost. *)
Definition dense (s : source_map) : source_map :=
  mkSourceMap (sm_version s) (sm_file s) (sm_source_root s) (sm_sources s)
    (option_map (filter (fun o => match o with Some _ => true | None => false end)) (sm_sources_content s)) (sm_names s) (sm_mappings s).
Lemma sets_contents : forall l, sets (LArr (map (fun o : option string => match o with Some v => dummy_str v | None => LNull end) l))
  (JArr (map (opt_json JStr) (filter (fun o => match o with Some _ => true | None => false end) l))).
Proof.
  intros l. unfold sets. rewrite set_value_arr.
  assert (K : forall idx acc, set_list (map (fun o : option string => match o with Some v => dummy_str v | None => LNull end) l) idx acc
    = Some (acc ++ map (opt_json JStr) (filter (fun o => match o with Some _ => true | None => false end) l))%list).
  { induction l as [|[v|] l IH]; intros idx acc; cbn [map set_list filter].
    - now rewrite app_nil_r.
    - cbn [dummy_str set_value str_value obind opt_json]. rewrite IH, <- app_assoc. reflexivity.
    - cbn [set_value obind]. apply IH. }
  rewrite K. reflexivity.
Qed.
Lemma sets_source_map : forall s, sets (source_map_lit s) (source_map_json (dense s)).
Proof.
  intros [v f r s c n m]. unfold sets, source_map_lit, source_map_json, dense. rewrite set_value_obj.
  cbn [sm_version sm_file sm_source_root sm_sources sm_sources_content sm_names sm_mappings].
  assert (D : forall l, sets (LArr (map dummy_str l)) (strs_json l)).
  { intros l. apply sets_list; [apply sets_dummy|]. intros a. exact I. }
  destruct f as [f|], r as [r|], c as [c|]; cbn [app set_props ident_prop key_value obind field_opt option_map];
    rewrite !D; rewrite ?sets_contents; reflexivity.
Qed.
(** The fields that are read *)
Definition fc_read (fc : file_coverage) : list (string * json) :=
  (("all", JBool (fc_all fc)) :: ("path", JStr (fc_path fc))
   :: ("statementMap", map_json range_json (key_sort (fc_statement_map fc)))
   :: ("fnMap", map_json func_json (key_sort (fc_fn_map fc)))
   :: ("branchMap", map_json branch_value (key_sort (fc_branch_map fc)))
   :: ("s", map_json JNum (key_sort (fc_s fc))) :: ("f", map_json JNum (key_sort (fc_f fc)))
   :: ("b", map_json nums_json (key_sort (fc_b fc)))
   :: field_opt "bT" (fun bt => map_json nums_json (key_sort bt)) (fc_b_t fc)
   ++ field_opt "inputSourceMap" (fun s => source_map_json (dense s)) (fc_input_source_map fc))%list.
Lemma sets_data : forall fc, fc_names_plain fc ->
  sets (snd (coverage_data_object fc)) (JObj (fc_read fc ++ [(COVERAGE_MAGIC_KEY, JStr COVERAGE_MAGIC_VALUE); ("hash", JStr (fc_hash fc))])).
Proof.
  intros [a p sm fm bm s f b bt i] H. unfold fc_names_plain in H. cbn [fc_fn_map] in H.
  unfold sets, coverage_data_object, fc_read. cbv zeta. cbn [snd]. rewrite set_value_obj.
  set (fc := mkFC a p sm fm bm s f b bt i). change (fc_hash _) with (fc_hash fc).
  assert (Hh : sets (str_lit (fc_hash fc)) (JStr (fc_hash fc))) by apply sets_str, plain_dec.
  remember (fc_hash fc) as h eqn:Eh. clear Eh. unfold sets in Hh.
  cbn [fc_all fc_path fc_statement_map fc_fn_map fc_branch_map fc_s fc_f fc_b fc_b_t fc_input_source_map fc].
  assert (Hf : set_value (map_lit func_lit fm) = Some (Some (map_json func_json (key_sort fm)))).
  { apply sets_map. eapply Forall_impl; [|exact H]. intros kv Hk. now apply sets_func. }
  assert (Hm : set_value (str_lit COVERAGE_MAGIC_VALUE) = Some (Some (JStr COVERAGE_MAGIC_VALUE))) by reflexivity.
  assert (Hsm : set_value (map_lit range_lit sm) = Some (Some (map_json range_json (key_sort sm)))) by apply sets_map_all, sets_range.
  assert (Hbm : set_value (map_lit branch_lit bm) = Some (Some (map_json branch_value (key_sort bm)))) by apply sets_map_all, sets_branch.
  assert (Hn : forall m, set_value (map_lit num_lit m) = Some (Some (map_json JNum (key_sort m)))) by (intros; apply sets_map_all, sets_num).
  assert (Hns : forall m, set_value (map_lit nums_lit m) = Some (Some (map_json nums_json (key_sort m)))) by (intros; apply sets_map_all, sets_nums).
  pose proof (fun x : source_map => sets_source_map x) as Hi. unfold sets in Hi.
  destruct bt as [bt|], i as [i|]; cbn [app set_props ident_prop key_value obind field_opt];
    rewrite ?Hsm, ?Hf, ?Hbm, ?Hn, ?Hns, ?Hi, ?Hm, ?Hh; reflexivity.
Qed.
Lemma read_filter : forall fc, remove "hash" (remove COVERAGE_MAGIC_KEY
    (JObj (fc_read fc ++ [(COVERAGE_MAGIC_KEY, JStr COVERAGE_MAGIC_VALUE); ("hash", JStr (fc_hash fc))]))) = JObj (fc_read fc).
Proof.
  intros [a p sm fm bm s f b bt i]. unfold remove, fc_read. remember (fc_hash _) as h eqn:Eh. clear Eh.
  cbn [fc_all fc_path fc_statement_map fc_fn_map fc_branch_map fc_s fc_f fc_b fc_b_t fc_input_source_map].
  destruct bt as [bt|], i as [i|]; reflexivity.
Qed.
Lemma template_marked : forall gcv file fc, marked (template (emitted_for gcv file fc)) = true.
Proof.
  intros gcv file fc. unfold marked, template, emitted_for. cbn [em_data em_path em_hash em_gcv existsb]. unfold coverage_data_object. cbv zeta. cbn [snd fst].
  rewrite !orb_false_l. apply orb_true_iff. left.
  destruct (fc_b_t fc), (fc_input_source_map fc); reflexivity.
Qed.

(** ** What is read from the emitted function *)
Theorem initial_read_back : forall gcv name file fc dbg fns, fc_names_plain fc ->
  read_initial (fns ++ [create_coverage_fn_decl gcv name file fc dbg]) =
  Some (mkInitial (JStr file) (JStr (dec (hash_str (print (fc_json fc))))) (JStr gcv) (JObj (fc_read fc))).
Proof.
  intros gcv name file fc dbg fns H. unfold read_initial. rewrite rev_app_distr. cbn [rev app find].
  unfold create_coverage_fn_decl at 1. cbn [fd_body]. rewrite template_marked. cbn [obind fd_body create_coverage_fn_decl].
  assert (P : binding "path" (template (emitted_for gcv file fc)) = Some (XStr file)) by reflexivity.
  assert (G : binding "gcv" (template (emitted_for gcv file fc)) = Some (XStr gcv)) by reflexivity.
  assert (D : binding "coverageData" (template (emitted_for gcv file fc)) = Some (XData (snd (coverage_data_object fc)))) by reflexivity.
  assert (Hh : binding "hash" (template (emitted_for gcv file fc)) = Some (XStr (fc_hash fc))) by reflexivity.
  rewrite P, G, D, Hh. cbn [obind value_of]. rewrite (sets_data fc H). cbn [obind]. rewrite read_filter. reflexivity.
Qed.
(** The record can be recovered from it, except for nulls in [sourcesContent]. *)
Definition with_dense (fc : file_coverage) : file_coverage :=
  mkFC (fc_all fc) (fc_path fc) (fc_statement_map fc) (fc_fn_map fc) (fc_branch_map fc) (fc_s fc) (fc_f fc) (fc_b fc) (fc_b_t fc)
    (option_map dense (fc_input_source_map fc)).
Theorem initial_is_record : forall fc, unique_keys fc ->
  exists fc', read_fc (JObj (fc_read fc)) = Some fc' /\ same_data fc' (with_dense fc).
Proof.
  intros fc U. exists (fc_sorted (with_dense fc)). split; [|now apply fc_sorted_same].
  rewrite <- read_fc_value. destruct fc as [a p sm fm bm s f b bt i]. unfold fc_read, fc_value, with_dense.
  remember (fc_hash _) as h eqn:Eh. clear Eh U.
  cbn [fc_all fc_path fc_statement_map fc_fn_map fc_branch_map fc_s fc_f fc_b fc_b_t fc_input_source_map].
  destruct bt as [bt|], i as [i|]; cbn [app field_opt option_map]; reflexivity.
Qed.

(** ** Comparison with the debug comment *)
Lemma deep_refl : forall j, deep j j.
Proof.
  induction j as [|b|n|s|l IH|o IH] using json_ind'; try constructor.
  - induction IH; constructor; auto.
  - apply D_obj with o; [reflexivity|]. induction IH; constructor; auto.
Qed.
Lemma deep_sorted : forall A (f g : A -> json) (m : imap N A), NoDup (im_keys m) -> Forall (fun kv => deep (f (snd kv)) (g (snd kv))) m ->
  deep (map_json f (key_sort m)) (map_json g m).
Proof.
  intros A f g m U H. pose proof (key_sort_perm m U) as P. unfold map_json.
  apply D_obj with (map (fun kv => (dec (fst kv), g (snd kv))) (key_sort m)); [apply Permutation_map; now symmetry|].
  assert (H' : Forall (fun kv => deep (f (snd kv)) (g (snd kv))) (key_sort m)) by (eapply Permutation_Forall; [symmetry; exact P|exact H]).
  clear P. induction H' as [|kv l Hk H' IH]; cbn [map]; constructor; auto.
Qed.
(** The same without the premise, for one kind of entries *)
Lemma deep_sorted_inv : forall A (f g : A -> json) (m : imap N A), NoDup (im_keys m) ->
  deep (map_json f (key_sort m)) (map_json g m) -> Forall (fun kv => deep (f (snd kv)) (g (snd kv))) m.
Proof.
  intros A f g m U H. pose proof (key_sort_perm m U) as P. inversion H as [| | | | |a b b' Pb F E1 E2]; subst. clear H.
  apply Forall_forall. intros [k x] Hin. assert (Hs : In (k, x) (key_sort m)) by (eapply Permutation_in; [symmetry; exact P|exact Hin]).
  apply (in_map (fun kv => (dec (fst kv), f (snd kv)))) in Hs. cbn [fst snd] in Hs.
  assert (K : forall l l', Forall2 (fun x y : string * json => fst x = fst y /\ deep (snd x) (snd y)) l l' -> forall e, In e l -> exists e', In e' l' /\ fst e = fst e' /\ deep (snd e) (snd e')).
  { intros l l' F'. induction F' as [|u v l l' [Q1 Q2] F' IH]; intros e [].
    - subst. exists v. cbn. auto.
    - destruct (IH e H) as (e' & A1 & A2). exists e'. cbn. auto. }
  destruct (K _ _ F _ Hs) as ([k' y] & I1 & I2 & I3). cbn [fst snd] in *. apply (Permutation_in _ (Permutation_sym Pb)) in I1.
  apply in_map_iff in I1 as ([k2 x2] & E & Hin2). cbn [fst snd] in E. injection E as E1 E2. subst k'. apply dec_inj in I2. subst k2 y.
  assert (X : x2 = x); [|rewrite X in I3; exact I3]. unfold im_keys in U. clear - U Hin Hin2. revert U Hin Hin2. induction m as [|[a b] m IH]; cbn [map fst]; intros U H1 H2; [contradiction|].
  inversion U as [|? ? N U']; subst. destruct H1 as [H1|H1], H2 as [H2|H2].
  - congruence.
  - injection H1 as -> ->. apply (in_map fst) in H2. contradiction.
  - injection H2 as -> ->. apply (in_map fst) in H1. contradiction.
  - now apply IH.
Qed.
(** Equal lists of fields: the fields one by one *)
Lemma deep_fields : forall a b, NoDup (map fst a) -> map fst a = map fst b -> deep (JObj a) (JObj b) ->
  Forall2 (fun x y => fst x = fst y /\ deep (snd x) (snd y)) a b.
Proof.
  intros a b U E H. inversion H as [| | | | |a0 b0 b' P F E1 E2]; subst. clear H.
  assert (M : map fst a = map fst b') by (clear - F; induction F as [|x y a b' [Q _] F IH]; cbn; congruence).
  assert (b = b') as ->; [|exact F].
  assert (K : forall l l', map fst l = map fst l' -> NoDup (map fst l) -> Permutation l l' -> l = l' :> list (string * json)).
  { clear. induction l as [|[k x] l IH]; intros [|[k' x'] l'] E U P; cbn in E; try discriminate; [reflexivity|].
    injection E as <- E. cbn [map fst] in U. inversion U as [|? ? N U']; subst.
    assert (I : In (k, x) ((k, x') :: l')) by (eapply Permutation_in; [exact P|now left]). destruct I as [I|I].
    - injection I as ->. f_equal. apply IH; auto. now apply Permutation_cons_inv in P.
    - apply (in_map fst) in I. cbn [fst] in I. rewrite <- E in I. contradiction. }
  apply K; [congruence|congruence|exact P].
Qed.

Lemma Forall2_len : forall A B (R : A -> B -> Prop) l l', Forall2 R l l' -> length l = length l'.
Proof. intros A B R l l' H. induction H; cbn; congruence. Qed.
Definition complete (b : branch) : Prop := b_loc b <> None /\ b_locations b <> [] /\ b_line b <> None.
Definition no_nulls (s : option source_map) : Prop :=
  match s with
  | Some s => match sm_sources_content s with Some l => ~ In None l | None => True end
  | None => True
  end.
Lemma deep_branch_iff : forall b, deep (branch_value b) (branch_json b) <-> complete b.
Proof.
  intros [l t ls n]. unfold complete. cbn [b_loc b_locations b_line]. split.
  - intros H. inversion H as [| | | | |a0 b0 b' P F E1 E2]; subst. clear H. apply Permutation_length in P. pose proof (Forall2_len _ _ _ _ _ F) as L.
    cbn in P. rewrite <- P in L. destruct l as [l|], ls as [|r ls], n as [n|]; cbn in L; try discriminate L. repeat split; discriminate.
  - intros (A & B & C). destruct l as [l|]; [|contradiction]. destruct ls as [|r ls]; [contradiction|]. destruct n as [n|]; [|contradiction]. apply deep_refl.
Qed.
Lemma dense_same : forall s, no_nulls (Some s) -> dense s = s.
Proof.
  intros [v f r s c n m] H. unfold no_nulls in H. cbn [sm_sources_content] in H. unfold dense.
  cbn [sm_version sm_file sm_source_root sm_sources sm_sources_content sm_names sm_mappings].
  destruct c as [c|]; [|reflexivity]. cbn [option_map]. repeat f_equal. induction c as [|[x|] c IH]; [reflexivity| |].
  - cbn [filter]. f_equal. apply IH. intros K. apply H. now right.
  - exfalso. apply H. now left.
Qed.
Lemma filter_le : forall A (p : A -> bool) l, (length (filter p l) <= length l)%nat.
Proof. intros A p. induction l as [|a l IH]; [constructor|]. cbn. destruct (p a); cbn; lia. Qed.
Lemma deep_source_iff : forall s, deep (source_map_json (dense s)) (source_map_json s) <-> no_nulls (Some s).
Proof.
  intros s. split; [|intros H; rewrite (dense_same s H); apply deep_refl].
  destruct s as [v f r s c n m]. unfold no_nulls, source_map_json, dense.
  cbn [sm_version sm_file sm_source_root sm_sources sm_sources_content sm_names sm_mappings]. destruct c as [c|]; [|easy]. cbn [option_map]. intros H.
  apply deep_fields in H.
  2: { destruct f, r; cbn; repeat constructor; cbn; intuition discriminate. }
  2: { destruct f, r; reflexivity. }
  assert (L : Forall2 deep (map (opt_json JStr) (filter (fun o => match o with Some _ => true | None => false end) c)) (map (opt_json JStr) c)).
  { assert (D : deep (JArr (map (opt_json JStr) (filter (fun o => match o with Some _ => true | None => false end) c))) (JArr (map (opt_json JStr) c))).
    { destruct f, r; cbn [field_opt app] in H; repeat match goal with K : Forall2 _ (_ :: _) (_ :: _) |- _ => inversion K; clear K; subst end; cbn [fst snd] in *; tauto. }
    inversion D; assumption. }
  apply Forall2_len in L. rewrite !map_length in L. clear H. intros Hin.
  induction c as [|[x|] c IH]; [contradiction| |].
  - cbn in L. injection L as L. destruct Hin as [Hin|Hin]; [discriminate|]. now apply IH.
  - cbn in L. pose proof (filter_le _ (fun o : option string => match o with Some _ => true | None => false end) c). lia.
Qed.
(** The test-suite's comparison succeeds exactly for records with complete branches and without nulls among the sources. *)
Theorem matches_comment_iff : forall fc, unique_keys fc ->
  deep (JObj (fc_read fc)) (fc_json fc) <-> Forall (fun kv => complete (snd kv)) (fc_branch_map fc) /\ no_nulls (fc_input_source_map fc).
Proof.
  intros [a p sm fm bm s f b bt i] (U1 & U2 & U3 & U4 & U5 & U6 & U7). unfold fc_json, fc_fields, fc_read.
  cbn [fc_all fc_path fc_statement_map fc_fn_map fc_branch_map fc_s fc_f fc_b fc_b_t fc_input_source_map] in *. split.
  - intros H. apply deep_fields in H.
    2: { destruct bt, i; cbn; repeat constructor; cbn; intuition discriminate. }
    2: { destruct bt, i; reflexivity. }
    assert (B : deep (map_json branch_value (key_sort bm)) (map_json branch_json bm)).
    { do 5 (inversion H as [|? ? ? ? [_ ?] H']; clear H; subst; rename H' into H). assumption. }
    apply deep_sorted_inv in B; [|exact U3]. split.
    + eapply Forall_impl; [|exact B]. intros kv. apply deep_branch_iff.
    + destruct i as [i|]; [|exact I]. apply deep_source_iff.
      do 8 (inversion H as [|? ? ? ? [_ ?] H']; clear H; subst; rename H' into H).
      destruct bt; cbn [field_opt app] in H; repeat match goal with K : Forall2 _ (_ :: _) (_ :: _) |- _ => inversion K; clear K; subst end; cbn [fst snd] in *; tauto.
  - intros (HB & HI).
    assert (D : Forall2 (fun x y : string * json => fst x = fst y /\ deep (snd x) (snd y))
      (("all", JBool a) :: ("path", JStr p) :: ("statementMap", map_json range_json (key_sort sm)) :: ("fnMap", map_json func_json (key_sort fm))
       :: ("branchMap", map_json branch_value (key_sort bm)) :: ("s", map_json JNum (key_sort s)) :: ("f", map_json JNum (key_sort f))
       :: ("b", map_json nums_json (key_sort b)) :: field_opt "bT" (fun bt => map_json nums_json (key_sort bt)) bt
       ++ field_opt "inputSourceMap" (fun s => source_map_json (dense s)) i)%list
      (("all", JBool a) :: ("path", JStr p) :: ("statementMap", map_json range_json sm) :: ("fnMap", map_json func_json fm)
       :: ("branchMap", map_json branch_json bm) :: ("s", map_json JNum s) :: ("f", map_json JNum f)
       :: ("b", map_json nums_json b) :: field_opt "bT" (map_json nums_json) bt ++ field_opt "inputSourceMap" source_map_json i)%list).
    { assert (R : forall A (g : A -> json) (m : imap N A), NoDup (im_keys m) -> deep (map_json g (key_sort m)) (map_json g m)).
      { intros A g m U. apply deep_sorted; [exact U|]. apply Forall_forall. intros kv _. apply deep_refl. }
      assert (DB : deep (map_json branch_value (key_sort bm)) (map_json branch_json bm)).
      { apply deep_sorted; [exact U3|]. eapply Forall_impl; [|exact HB]. intros kv. apply deep_branch_iff. }
      do 8 (apply Forall2_cons; [split; [reflexivity|cbn [snd]; auto using deep_refl]|]). apply Forall2_app.
      - destruct bt as [bt|]; cbn [field_opt]; constructor; [split; [reflexivity|cbn [snd]; auto]|constructor].
      - destruct i as [i|]; cbn [field_opt]; constructor; [split; [reflexivity|cbn [snd]; now apply deep_source_iff]|constructor]. }
    eapply D_obj; [reflexivity|exact D].
Qed.

(** ** Programs *)
Theorem initial_of_program_partial : forall x m n t p out p' items,
  program_items t = Some items -> forallb (good false) items = true -> clean t = true -> Forall plain (idents t) ->
  process x m n t p = Ok (out, p') ->
  excluded x (options_of m) (file_name m) = false ->
  should_ignore_file (m_word m) (m_comments m) (nspan t) = false ->
  let o := options_of m in
  exists fc v, templates (out_program out) = [fc] /\
    read_initial (functions o (file_name m) out) =
      Some (mkInitial (JStr (file_name m)) (JStr (dec (hash_str (print (fc_json fc))))) (JStr (o_variable o)) v) /\
    (exists fc', read_fc v = Some fc' /\ same_data fc' (with_dense fc)) /\
    (deep v (fc_json fc) <-> no_nulls (o_source_map o)).
Proof.
  intros x m n t p out p' items Hi Hg Hc Hp R Hx Hf o.
  destruct (instrumented_otherwise x m n t p out p' items Hi Hg Hc R Hx Hf) as (sc & E & T). fold o in E.
  destruct (options_reach_output x m n t p out p' items Hi Hg Hc R Hx Hf) as (sc' & name & E' & _ & _ & _ & _ & _ & F). cbv zeta in F. fold o in E', F.
  unfold env_of in E. rewrite E in E'. injection E' as <-.
  destruct (produced_literal _ _ _ _ _ _ _ _ Hi E Hp) as [O _]. destruct (O "") as (_ & Np & U).
  pose proof (produced_record _ _ _ _ _ _ _ _ Hi E) as P. cbv zeta in P. destruct P as (_ & _ & P2 & _ & _ & _ & _ & _ & P3 & _ & P4 & _).
  exists (sc_fc sc), (JObj (fc_read (sc_fc sc))). split; [exact T|]. split.
  - rewrite F. apply (initial_read_back _ name _ _ (o_debug_comment o) [] Np).
  - split; [now apply initial_is_record|]. rewrite (matches_comment_iff _ U), P2. split; [now intros [_ H]|]. intros H. split; [|exact H].
    apply Forall_forall. intros [k br] Hin. cbn [snd]. destruct (P4 k br) as (A & r & B & C).
    + now apply im_in_get.
    + unfold complete. rewrite B, C. repeat split; [discriminate|exact A|discriminate].
Qed.

Definition read_meta (contents : string) : meta :=
  mkMeta (Some "a.js") (Some ("{""coverageVariable"": ""__cov__"", ""inputSourceMap"": {""version"": 3, ""sources"": [""a.ts""], ""sourcesContent"": ["
    ++ contents ++ "], ""names"": [], ""mappings"": """"}}")) no_comments (fun n => (n, 0%N)) (fun _ => false).
(** a.js: [f();] *)
Definition read_module : node := module_ 1 5 [T 1 5 KExprStmt [X 1 4 (KOther 0) [var 1 2 "f"]]].
Lemma read_ex : forall c l, o_source_map (options_of (read_meta c)) = Some (mkSourceMap 3 None None ["a.ts"] (Some l) [] "") ->
  excluded no_ext (options_of (read_meta c)) "a.js" = false -> file_name (read_meta c) = "a.js" -> o_variable (options_of (read_meta c)) = "__cov__" ->
  (exists out p', process no_ext (read_meta c) 20 read_module (mkProc (Some "cov_1") (Some "cov_1_temp") false) = Ok (out, p')) ->
  exists out p' fc init, process no_ext (read_meta c) 20 read_module (mkProc (Some "cov_1") (Some "cov_1_temp") false) = Ok (out, p') /\
    templates (out_program out) = [fc] /\ read_initial (functions (options_of (read_meta c)) "a.js" out) = Some init /\
    in_path init = JStr "a.js" /\ in_gcv init = JStr "__cov__" /\ (deep (in_data init) (fc_json fc) <-> ~ In None l).
Proof.
  intros c l Hs Hx Hn Hv (out & p' & R).
  destruct (initial_of_program_partial no_ext (read_meta c) 20 read_module (mkProc (Some "cov_1") (Some "cov_1_temp") false) out p' _ eq_refl eq_refl eq_refl) as (fc & v & T & I & _ & D).
  - repeat constructor.
  - exact R.
  - rewrite Hn. exact Hx.
  - reflexivity.
  - rewrite Hn, Hv in I. rewrite Hs in D. exists out, p', fc. eexists. split; [exact R|]. split; [exact T|]. split; [exact I|]. split; [reflexivity|]. split; [reflexivity|]. exact D.
Qed.
(** C58 is false of the reader: a source without content is dropped, so the comparison with the comment fails. *)
Theorem initial_loses_null_refuted : exists m n t out p' fc init,
  process no_ext m n t (mkProc (Some "cov_1") (Some "cov_1_temp") false) = Ok (out, p') /\
  templates (out_program out) = [fc] /\ read_initial (functions (options_of m) "a.js" out) = Some init /\ ~ deep (in_data init) (fc_json fc).
Proof.
  destruct (read_ex "null" [None]) as (out & p' & fc & init & R & T & I & _ & _ & D); try reflexivity.
  - destruct (process no_ext (read_meta "null") 20 read_module _) as [[out p']|r|] eqn:H; [eauto|vm_compute in H; discriminate|vm_compute in H; discriminate].
  - exists (read_meta "null"), 20%nat, read_module, out, p', fc, init. split; [exact R|]. split; [exact T|]. split; [exact I|]. rewrite D. cbn. tauto.
Qed.
Example initial_read_ex : exists out p' fc init,
  process no_ext (read_meta """x""") 20 read_module (mkProc (Some "cov_1") (Some "cov_1_temp") false) = Ok (out, p') /\
  templates (out_program out) = [fc] /\ im_keys (fc_s fc) = [0%N] /\ read_initial (functions (options_of (read_meta """x""")) "a.js" out) = Some init /\
  in_path init = JStr "a.js" /\ in_gcv init = JStr "__cov__" /\ deep (in_data init) (fc_json fc).
Proof.
  destruct (read_ex """x""" [Some "x"]) as (out & p' & fc & init & R & T & I & A & B & D); try reflexivity.
  - destruct (process no_ext (read_meta """x""") 20 read_module _) as [[out p']|r|] eqn:H; [eauto|vm_compute in H; discriminate|vm_compute in H; discriminate].
  - exists out, p', fc, init. split; [exact R|]. split; [exact T|]. split; [|split; [exact I|]].
    + pose proof R as R'. vm_compute in R'. injection R' as E _. rewrite <- E in T. vm_compute in T. injection T as <-. reflexivity.
    + split; [exact A|]. split; [exact B|]. apply D. cbn. intuition discriminate.
Qed.
