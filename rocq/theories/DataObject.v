(** The object literal [create_coverage_data_object] embeds in the instrumented file, and its
    value when the emitted text is evaluated. *)
From Coq Require Import NArith String Ascii List Bool Lia Permutation Sorted.
Import ListNotations.
From Verif Require Import Base IndexMap Decimal Oxide Json SipHash CovJson.
Open Scope string_scope.

(** ** Literals

    String and number literals carry the optional [raw] text which the code generator prints
    instead of the value when it is present. *)
Inductive key := KeyIdent (name : string) | KeyStr (value : string) (raw : option string).
Inductive lit :=
| LNull | LBool (b : bool) | LNum (value : N) (raw : option string) | LStr (value : string) (raw : option string)
| LArr (l : list lit) | LObj (o : list (key * lit)).

(** create_coverage_data_object.rs:16-22 [create_str]: the value between quotes, verbatim *)
Definition create_str_raw (v : string) : option string := Some (String dquote (v ++ ch1 dquote)).
(** 24-26, 28-34, 36-41, 43-48 *)
Definition str_lit (v : string) : lit := LStr v (create_str_raw v).
Definition num_lit (n : N) : lit := LNum n (Some (dec n)).
Definition ident_prop (k : string) (v : lit) : key * lit := (KeyIdent k, v).
Definition str_prop (k : string) (v : lit) : key * lit := (KeyStr k (create_str_raw k), v).
(** [Str { value, ..Str::dummy() }]: no raw text, the code generator escapes the value *)
Definition dummy_str (v : string) : lit := LStr v None.
(** 50-86 *)
Definition range_lit (r : range) : lit :=
  LObj [ident_prop "start" (LObj [ident_prop "line" (num_lit (line (rstart r)));
                                  ident_prop "column" (num_lit (column (rstart r)))]);
        ident_prop "end" (LObj [ident_prop "line" (num_lit (line (rend r)));
                                ident_prop "column" (num_lit (column (rend r)))])].
(** 88-101 *)
Definition func_lit (f : func) : lit :=
  LObj [ident_prop "name" (str_lit (f_name f)); ident_prop "decl" (range_lit (f_decl f));
        ident_prop "loc" (range_lit (f_loc f)); ident_prop "line" (num_lit (f_line f))].
(** 103-116 *)
Definition nums_lit (l : list N) : lit := LArr (map num_lit l).
(** 118-169 *)
Definition branch_lit (b : branch) : lit :=
  LObj (match b_loc b with Some r => [ident_prop "loc" (range_lit r)] | None => [] end
        ++ ident_prop "type" (str_lit (branch_type_str (b_type b)))
        :: match b_locations b with [] => [] | l => [ident_prop "locations" (LArr (map range_lit l))] end
        ++ match b_line b with Some n => [ident_prop "line" (num_lit n)] | None => [] end)%list.
Definition map_lit {A} (f : A -> lit) (m : imap N A) : lit :=
  LObj (map (fun kv => str_prop (dec (fst kv)) (f (snd kv))) m).
(** 303-406 *)
Definition source_map_lit (s : source_map) : lit :=
  LObj (ident_prop "version" (LNum (sm_version s) None)
        :: match sm_file s with Some f => [ident_prop "file" (dummy_str f)] | None => [] end
        ++ match sm_source_root s with Some r => [ident_prop "sourceRoot" (dummy_str r)] | None => [] end
        ++ ident_prop "sources" (LArr (map dummy_str (sm_sources s)))
        :: match sm_sources_content s with
           | Some l => [ident_prop "sourcesContent"
                          (LArr (map (fun o => match o with Some v => dummy_str v | None => LNull end) l))]
           | None => []
           end
        ++ [ident_prop "names" (LArr (map dummy_str (sm_names s)));
            ident_prop "mappings" (dummy_str (sm_mappings s))])%list.
(** 171-446 *)
Definition coverage_data_object (fc : file_coverage) : string * lit :=
  let hash := fc_hash fc in
  (hash,
   LObj (ident_prop "all" (LBool (fc_all fc))
         :: ident_prop "path" (dummy_str (fc_path fc))
         :: ident_prop "statementMap" (map_lit range_lit (fc_statement_map fc))
         :: ident_prop "fnMap" (map_lit func_lit (fc_fn_map fc))
         :: ident_prop "branchMap" (map_lit branch_lit (fc_branch_map fc))
         :: ident_prop "s" (map_lit num_lit (fc_s fc))
         :: ident_prop "f" (map_lit num_lit (fc_f fc))
         :: ident_prop "b" (map_lit nums_lit (fc_b fc))
         :: match fc_b_t fc with Some bt => [ident_prop "bT" (map_lit nums_lit bt)] | None => [] end
         ++ match fc_input_source_map fc with
            | Some s => [ident_prop "inputSourceMap" (source_map_lit s)]
            | None => []
            end
         ++ [ident_prop COVERAGE_MAGIC_KEY (str_lit COVERAGE_MAGIC_VALUE);
             ident_prop "hash" (str_lit hash)])%list).

(** ** Evaluation of the emitted text

    A literal with raw text denotes what JavaScript reads from that text: for strings the
    characters between double quotes, a syntax error if there is a quote or line break among
    them; text with a backslash would need escape processing and is rejected here as well. *)
Definition plain_char (c : ascii) : bool :=
  negb (Ascii.eqb c dquote || Ascii.eqb c backslash || Ascii.eqb c "010" || Ascii.eqb c "013").
Fixpoint read_plain (s : string) : option string :=
  match s with
  | EmptyString => None
  | String c EmptyString => if Ascii.eqb c dquote then Some EmptyString else None
  | String c s' => if plain_char c then let? r := read_plain s' in Some (String c r) else None
  end.
Definition read_raw_str (raw : string) : option string :=
  match raw with
  | String c s => if Ascii.eqb c dquote then read_plain s else None
  | EmptyString => None
  end.
Definition str_value (v : string) (raw : option string) : option string :=
  match raw with None => Some v | Some r => read_raw_str r end.
Definition num_value (n : N) (raw : option string) : option N :=
  match raw with None => Some n | Some r => num_key r end.
Definition key_value (k : key) : option string :=
  match k with KeyIdent n => Some n | KeyStr v raw => str_value v raw end.
(** Property order of JavaScript objects: integer keys first in ascending order, then the other
    keys in order of creation; assigning an existing property keeps its place. *)
Definition key_before (a b : string) : bool :=
  match num_key a, num_key b with
  | Some x, Some y => (x <? y)%N
  | Some _, None => true
  | None, _ => false
  end.
Fixpoint obj_put (k : string) (v : json) (o : list (string * json)) : list (string * json) :=
  match o with
  | [] => [(k, v)]
  | (k', v') :: o' =>
      if String.eqb k k' then (k', v) :: o'
      else if key_before k k' then (k, v) :: (k', v') :: o'
      else (k', v') :: obj_put k v o'
  end.
Fixpoint eval (l : lit) : option json :=
  match l with
  | LNull => Some JNull
  | LBool b => Some (JBool b)
  | LNum n raw => let? n := num_value n raw in Some (JNum n)
  | LStr v raw => let? s := str_value v raw in Some (JStr s)
  | LArr l => let? vs := (fix go (l : list lit) : option (list json) :=
      match l with [] => Some [] | x :: l' => let? v := eval x in let? vs := go l' in Some (v :: vs) end) l in
      Some (JArr vs)
  | LObj o => let? o := (fix go (o : list (key * lit)) (acc : list (string * json)) : option (list (string * json)) :=
      match o with
      | [] => Some acc
      | (k, x) :: o' => let? n := key_value k in let? v := eval x in go o' (obj_put n v acc)
      end) o [] in
      Some (JObj o)
  end.
Fixpoint eval_list (l : list lit) : option (list json) :=
  match l with [] => Some [] | x :: l' => let? v := eval x in let? vs := eval_list l' in Some (v :: vs) end.
Fixpoint eval_props (o : list (key * lit)) (acc : list (string * json)) : option (list (string * json)) :=
  match o with
  | [] => Some acc
  | (k, x) :: o' => let? n := key_value k in let? v := eval x in eval_props o' (obj_put n v acc)
  end.
Lemma eval_arr : forall l, eval (LArr l) = let? vs := eval_list l in Some (JArr vs).
Proof. reflexivity. Qed.
Lemma eval_obj : forall o, eval (LObj o) = let? o := eval_props o [] in Some (JObj o).
Proof. reflexivity. Qed.

(** ** Strings and numbers *)
Definition plain (s : string) : Prop := all_chars plain_char s = true.
Lemma read_plain_app : forall s, plain s -> read_plain (s ++ ch1 dquote) = Some s.
Proof.
  induction s as [|c s IH]; intros H; [reflexivity|]. cbn in H. apply andb_prop in H as [Hc Hs].
  cbn [append]. specialize (IH Hs). destruct (s ++ ch1 dquote) as [|d t] eqn:E; [destruct s; discriminate|].
  cbn [read_plain] in *. now rewrite Hc, IH.
Qed.
Lemma str_value_plain : forall s, plain s -> str_value s (create_str_raw s) = Some s.
Proof. intros s H. cbn. now apply read_plain_app. Qed.
(** The verbatim raw text denotes the value only if the value is plain. *)
Lemma read_plain_sound : forall s t, read_plain s = Some t -> s = t ++ ch1 dquote /\ plain t.
Proof.
  induction s as [|c s IH]; intros t H; [discriminate|]. destruct s as [|d s].
  - cbn in H. destruct (Ascii.eqb_spec c dquote) as [->|]; [|discriminate]. injection H as <-. now split.
  - cbn [read_plain] in *. destruct (plain_char c) eqn:Hc; [|discriminate].
    destruct (read_plain (String d s)) as [u|] eqn:Eu; cbn [read_plain] in Eu; rewrite Eu in H; [|discriminate].
    cbn in H. injection H as <-. cbn [read_plain] in IH. destruct (IH u Eu) as [E Hu].
    split; [cbn [append]; now rewrite E|]. unfold plain in *. cbn. now rewrite Hc.
Qed.
Lemma append_one_inj : forall a b c, a ++ ch1 c = b ++ ch1 c -> a = b.
Proof.
  induction a as [|x a IH]; intros [|y b] c H; [reflexivity| | |].
  - cbn in H. injection H as _ H. destruct b; discriminate.
  - cbn in H. injection H as _ H. destruct a; discriminate.
  - cbn in H. injection H as -> H. f_equal. now apply (IH b c).
Qed.
Theorem raw_string_exact : forall s, str_value s (create_str_raw s) = Some s <-> plain s.
Proof.
  intros s. split; [|apply str_value_plain]. intros H. cbn in H. apply read_plain_sound in H as [_ H]. exact H.
Qed.
Lemma plain_dec : forall n, plain (dec n).
Proof.
  intros n. unfold plain. pose proof (dec_digits n) as D. revert D. generalize (dec n). clear n.
  induction s as [|c s IH]; intros H; [reflexivity|]. cbn in *. apply andb_prop in H as [Hc Hs].
  rewrite (IH Hs), andb_true_r. clear IH Hs. destruct c as [[] [] [] [] [] [] [] []]; try reflexivity; discriminate Hc.
Qed.
Lemma eval_num : forall n, eval (num_lit n) = Some (JNum n).
Proof. intros n. cbn. now rewrite num_key_dec. Qed.
Lemma eval_str : forall s, plain s -> eval (str_lit s) = Some (JStr s).
Proof. intros s H. unfold str_lit. cbn [eval]. now rewrite (str_value_plain s H). Qed.

(** ** Maps keyed by numbers *)
Section Sorted.
Context {A : Type}.
Fixpoint key_put (k : N) (v : A) (o : imap N A) : imap N A :=
  match o with
  | [] => [(k, v)]
  | (k', v') :: o' =>
      if (k =? k')%N then (k', v) :: o' else if (k <? k')%N then (k, v) :: (k', v') :: o' else (k', v') :: key_put k v o'
  end.
Fixpoint key_puts (m acc : imap N A) : imap N A :=
  match m with [] => acc | (k, v) :: m' => key_puts m' (key_put k v acc) end.
(** The same entries in ascending order of the keys *)
Definition key_sort (m : imap N A) : imap N A := key_puts m [].

Lemma key_put_perm : forall k v o, ~ In k (im_keys o) -> Permutation (key_put k v o) ((k, v) :: o).
Proof.
  induction o as [|[k' v'] o IH]; intros H; [reflexivity|]. cbn.
  destruct (N.eqb_spec k k') as [->|]; [exfalso; apply H; now left|].
  destruct (k <? k')%N; [reflexivity|]. rewrite IH; [apply perm_swap|]. intros I. apply H. now right.
Qed.
Lemma key_puts_perm : forall m acc, NoDup (im_keys m) -> (forall k, In k (im_keys m) -> ~ In k (im_keys acc)) ->
  Permutation (key_puts m acc) (m ++ acc).
Proof.
  induction m as [|[k v] m IH]; intros acc H D; [reflexivity|]. cbn. inversion H as [|? ? Hk Hm]; subst.
  assert (P : Permutation (key_put k v acc) ((k, v) :: acc)) by (apply key_put_perm, D; now left).
  rewrite IH; [| exact Hm |].
  - rewrite P. symmetry. apply Permutation_middle.
  - intros j Hj I. apply (Permutation_in j (Permutation_map fst P)) in I. cbn in I. destruct I as [<-|I]; [contradiction|].
    now apply (D j (or_intror Hj)).
Qed.
Lemma key_sort_perm : forall m, NoDup (im_keys m) -> Permutation (key_sort m) m.
Proof. intros m H. unfold key_sort. rewrite key_puts_perm; [now rewrite app_nil_r|exact H|]. intros k _ []. Qed.
Definition key_lt (a b : N * A) : Prop := (fst a < fst b)%N.
Lemma key_put_sorted : forall k v o, StronglySorted key_lt o -> StronglySorted key_lt (key_put k v o).
Proof.
  induction o as [|[k' v'] o IH]; intros H; [repeat constructor|]. inversion H as [|? ? Ho Ha]; subst.
  cbn. destruct (N.eqb_spec k k') as [->|N].
  - constructor; assumption.
  - destruct (N.ltb_spec k k') as [L|L].
    + constructor; [exact H|]. constructor; [exact L|]. rewrite Forall_forall in *.
      intros x Hx. specialize (Ha x Hx). unfold key_lt in *. cbn in *. lia.
    + constructor; [now apply IH|]. clear IH H Ho. induction o as [|[k2 v2] o IH].
      * constructor; [|constructor]. unfold key_lt. cbn. lia.
      * inversion Ha as [|? ? H1 H2]; subst. cbn. destruct (k =? k2)%N; [constructor; assumption|].
        destruct (k <? k2)%N; constructor; auto. unfold key_lt. cbn. lia.
Qed.
Lemma key_puts_sorted : forall m acc, StronglySorted key_lt acc -> StronglySorted key_lt (key_puts m acc).
Proof. induction m as [|[k v] m IH]; intros acc H; [exact H|]. cbn. now apply IH, key_put_sorted. Qed.
Lemma key_sort_sorted : forall m, StronglySorted key_lt (key_sort m).
Proof. intros m. apply key_puts_sorted. constructor. Qed.
End Sorted.

Lemma key_before_dec : forall a b, key_before (dec a) (dec b) = (a <? b)%N.
Proof. intros a b. unfold key_before. now rewrite !num_key_dec. Qed.
Lemma dec_eqb : forall a b, String.eqb (dec a) (dec b) = (a =? b)%N.
Proof.
  intros a b. destruct (N.eqb_spec a b) as [->|H]; [apply String.eqb_refl|].
  apply String.eqb_neq. intros E. now apply dec_inj in E.
Qed.
Lemma obj_put_dec : forall A (g : A -> json) k v (o : imap N A),
  obj_put (dec k) (g v) (map (fun kv => (dec (fst kv), g (snd kv))) o)
  = map (fun kv => (dec (fst kv), g (snd kv))) (key_put k v o).
Proof.
  intros A g k v o. induction o as [|[k' v'] o IH]; [reflexivity|]. cbn.
  rewrite dec_eqb, key_before_dec. destruct (N.eqb_spec k k') as [->|]; [reflexivity|].
  destruct (k <? k')%N; [reflexivity|]. cbn. now rewrite IH.
Qed.
Lemma eval_map : forall A (f : A -> lit) (g : A -> json) (m : imap N A),
  Forall (fun kv => eval (f (snd kv)) = Some (g (snd kv))) m ->
  eval (map_lit f m) = Some (map_json g (key_sort m)).
Proof.
  intros A f g m H. unfold map_lit. rewrite eval_obj.
  assert (K : forall acc, eval_props (map (fun kv => str_prop (dec (fst kv)) (f (snd kv))) m)
      (map (fun kv => (dec (fst kv), g (snd kv))) acc)
    = Some (map (fun kv => (dec (fst kv), g (snd kv))) (key_puts m acc))).
  { induction H as [|[k v] m Hv _ IH]; intros acc; [reflexivity|].
    cbn [map eval_props fst snd str_prop key_value key_puts] in *. rewrite (str_value_plain _ (plain_dec k)). cbn [obind].
    rewrite Hv. cbn [obind]. now rewrite obj_put_dec, IH. }
  specialize (K []). cbn [map] in K. rewrite K. reflexivity.
Qed.
Lemma eval_map_all : forall A (f : A -> lit) (g : A -> json) (m : imap N A),
  (forall a, eval (f a) = Some (g a)) -> eval (map_lit f m) = Some (map_json g (key_sort m)).
Proof. intros A f g m H. apply eval_map. apply Forall_forall. intros kv _. apply H. Qed.
Lemma eval_list_map : forall A (f : A -> lit) (g : A -> json) l, (forall a, eval (f a) = Some (g a)) ->
  eval_list (map f l) = Some (map g l).
Proof. intros A f g l H. induction l as [|a l IH]; [reflexivity|]. cbn [map eval_list]. now rewrite H, IH. Qed.

(** ** The value of the literal *)
Lemma eval_range : forall r, eval (range_lit r) = Some (range_json r).
Proof.
  intros [[a b] [c d]]. unfold range_lit. rewrite eval_obj. cbn [eval_props ident_prop key_value obind].
  rewrite !eval_obj. cbn [eval_props ident_prop key_value obind line column rstart rend].
  rewrite !eval_num. reflexivity.
Qed.
Lemma eval_func : forall f, plain (f_name f) -> eval (func_lit f) = Some (func_json f).
Proof.
  intros [n d l k] H. cbn [f_name] in H. unfold func_lit. rewrite eval_obj.
  cbn [eval_props ident_prop key_value obind f_name f_decl f_loc f_line].
  rewrite (eval_str _ H), !eval_range, eval_num. reflexivity.
Qed.
Lemma eval_nums : forall l, eval (nums_lit l) = Some (nums_json l).
Proof. intros l. unfold nums_lit. rewrite eval_arr, (eval_list_map _ num_lit JNum l eval_num). reflexivity. Qed.
Lemma plain_type : forall t, plain (branch_type_str t).
Proof. intros []; reflexivity. Qed.
(** The value of a branch differs from its JSON form in leaving out absent fields. *)
Definition branch_value (b : branch) : json :=
  JObj (field_opt "loc" range_json (b_loc b)
        ++ ("type", JStr (branch_type_str (b_type b)))
        :: match b_locations b with [] => [] | l => [("locations", JArr (map range_json l))] end
        ++ field_opt "line" JNum (b_line b))%list.
Lemma eval_branch : forall b, eval (branch_lit b) = Some (branch_value b).
Proof.
  intros [l t ls n]. unfold branch_lit, branch_value. rewrite eval_obj. cbn [b_loc b_type b_locations b_line].
  destruct l as [l|], ls as [|r ls], n as [n|]; cbn [app eval_props ident_prop key_value obind field_opt];
    rewrite ?eval_range, ?(eval_str _ (plain_type t)), ?eval_num; cbn [obind];
    try (rewrite eval_arr, (eval_list_map _ range_lit range_json (r :: ls) eval_range));
    cbn [obind]; rewrite ?eval_num; cbn [obind]; reflexivity.
Qed.
Lemma read_branch_value : forall b, read_branch (branch_value b) = Some b.
Proof.
  intros [l t ls n]. unfold read_branch, branch_value, member. cbn [b_loc b_type b_locations b_line].
  destruct l as [l|], ls as [|r ls], n as [n|];
    cbn [app field_opt prop String.eqb Ascii.eqb Bool.eqb];
    rewrite ?(read_opt_some _ read_range range_json l (read_range_json l) eq_refl); cbn [obind];
    rewrite ?read_type_json;
    rewrite ?(read_opt_some _ (read_list read_range) (fun l => JArr (map range_json l)) (r :: ls) (read_ranges_json (r :: ls)) eq_refl);
    reflexivity.
Qed.
Lemma eval_dummy : forall s, eval (dummy_str s) = Some (JStr s).
Proof. reflexivity. Qed.
Lemma eval_dummies : forall l, eval (LArr (map dummy_str l)) = Some (strs_json l).
Proof. intros l. rewrite eval_arr, (eval_list_map _ dummy_str JStr l eval_dummy). reflexivity. Qed.
Lemma eval_contents : forall l,
  eval (LArr (map (fun o : option string => match o with Some v => dummy_str v | None => LNull end) l))
  = Some (JArr (map (opt_json JStr) l)).
Proof.
  intros l. rewrite eval_arr, (eval_list_map _ _ (opt_json JStr) l); [reflexivity|]. intros [s|]; reflexivity.
Qed.
Lemma eval_source_map : forall s, eval (source_map_lit s) = Some (source_map_json s).
Proof.
  intros [v f r s c n m]. unfold source_map_lit, source_map_json. rewrite eval_obj.
  cbn [sm_version sm_file sm_source_root sm_sources sm_sources_content sm_names sm_mappings].
  destruct f as [f|], r as [r|], c as [c|]; cbn [app eval_props ident_prop key_value obind field_opt];
    rewrite !eval_dummies; rewrite ?eval_contents; reflexivity.
Qed.

Definition fc_names_plain (fc : file_coverage) : Prop := Forall (fun kv => plain (f_name (snd kv))) (fc_fn_map fc).
(** The properties of the object, in order *)
Definition fc_value (fc : file_coverage) : list (string * json) :=
  (("all", JBool (fc_all fc)) :: ("path", JStr (fc_path fc))
   :: ("statementMap", map_json range_json (key_sort (fc_statement_map fc)))
   :: ("fnMap", map_json func_json (key_sort (fc_fn_map fc)))
   :: ("branchMap", map_json branch_value (key_sort (fc_branch_map fc)))
   :: ("s", map_json JNum (key_sort (fc_s fc))) :: ("f", map_json JNum (key_sort (fc_f fc)))
   :: ("b", map_json nums_json (key_sort (fc_b fc)))
   :: field_opt "bT" (fun bt => map_json nums_json (key_sort bt)) (fc_b_t fc)
   ++ field_opt "inputSourceMap" source_map_json (fc_input_source_map fc)
   ++ [("_coverageSchema", JStr COVERAGE_MAGIC_VALUE); ("hash", JStr (fc_hash fc))])%list.
Theorem data_object_value : forall fc, fc_names_plain fc ->
  eval (snd (coverage_data_object fc)) = Some (JObj (fc_value fc)).
Proof.
  intros [a p sm fm bm s f b bt i] H. unfold fc_names_plain in H. cbn [fc_fn_map] in H.
  unfold coverage_data_object, fc_value. cbv zeta. cbn [snd]. rewrite eval_obj.
  set (fc := mkFC a p sm fm bm s f b bt i). change (fc_hash _) with (fc_hash fc).
  assert (Hh : eval (str_lit (fc_hash fc)) = Some (JStr (fc_hash fc))) by apply eval_str, plain_dec.
  remember (fc_hash fc) as h eqn:Eh. clear Eh.
  cbn [fc_all fc_path fc_statement_map fc_fn_map fc_branch_map fc_s fc_f fc_b fc_b_t fc_input_source_map fc].
  assert (Hf : eval (map_lit func_lit fm) = Some (map_json func_json (key_sort fm))).
  { apply eval_map. eapply Forall_impl; [|exact H]. intros kv Hk. now apply eval_func. }
  assert (Hm : eval (str_lit COVERAGE_MAGIC_VALUE) = Some (JStr COVERAGE_MAGIC_VALUE)) by reflexivity.
  destruct bt as [bt|], i as [i|]; cbn [app eval_props ident_prop key_value obind field_opt];
    rewrite ?(eval_map_all _ range_lit range_json sm eval_range), ?Hf, ?(eval_map_all _ branch_lit branch_value bm eval_branch),
      ?(eval_map_all _ num_lit JNum s eval_num), ?(eval_map_all _ num_lit JNum f eval_num),
      ?(eval_map_all _ nums_lit nums_json b eval_nums), ?(eval_map_all _ nums_lit nums_json bt eval_nums),
      ?eval_source_map, ?Hm, ?Hh; reflexivity.
Qed.

(** ** Recovering the record *)
Definition fc_sorted (fc : file_coverage) : file_coverage :=
  mkFC (fc_all fc) (fc_path fc) (key_sort (fc_statement_map fc)) (key_sort (fc_fn_map fc)) (key_sort (fc_branch_map fc))
    (key_sort (fc_s fc)) (key_sort (fc_f fc)) (key_sort (fc_b fc)) (option_map key_sort (fc_b_t fc))
    (fc_input_source_map fc).
Lemma read_opt_nums : forall bt, read_opt (read_map (read_list read_num)) (Some (map_json nums_json bt)) = Some (Some bt).
Proof. intros bt. apply read_opt_some; [|reflexivity]. apply read_map_json. apply read_nums_json. Qed.
Lemma read_fc_value : forall fc, read_fc (JObj (fc_value fc)) = Some (fc_sorted fc).
Proof.
  intros [a p sm fm bm s f b bt i]. unfold read_fc, fc_value, fc_sorted, member.
  remember (fc_hash _) as h eqn:Eh. clear Eh.
  cbn [fc_all fc_path fc_statement_map fc_fn_map fc_branch_map fc_s fc_f fc_b fc_b_t fc_input_source_map].
  destruct bt as [bt|], i as [i|];
    cbn [app field_opt prop String.eqb Ascii.eqb Bool.eqb obind read_bool read_str option_map];
    rewrite (read_map_json _ _ _ (key_sort sm) read_range_json); cbn [obind];
    rewrite (read_map_json _ _ _ (key_sort fm) read_func_json); cbn [obind];
    rewrite (read_map_json _ _ _ (key_sort bm) read_branch_value); cbn [obind];
    rewrite (read_map_json _ read_num JNum (key_sort s) (fun _ => eq_refl)); cbn [obind];
    rewrite (read_map_json _ read_num JNum (key_sort f) (fun _ => eq_refl)); cbn [obind];
    rewrite (read_map_json _ _ _ (key_sort b) read_nums_json); cbn [obind];
    rewrite ?read_opt_nums; cbn [obind];
    try (rewrite (read_opt_some _ read_source_map source_map_json i (read_source_map_json i) eq_refl); cbn [obind]);
    reflexivity.
Qed.

(** Two records with the same entries, possibly in another order *)
Definition same_data (a b : file_coverage) : Prop :=
  fc_all a = fc_all b /\ fc_path a = fc_path b /\
  Permutation (fc_statement_map a) (fc_statement_map b) /\ Permutation (fc_fn_map a) (fc_fn_map b) /\
  Permutation (fc_branch_map a) (fc_branch_map b) /\
  Permutation (fc_s a) (fc_s b) /\ Permutation (fc_f a) (fc_f b) /\ Permutation (fc_b a) (fc_b b) /\
  match fc_b_t a, fc_b_t b with
  | Some x, Some y => Permutation x y
  | None, None => True
  | _, _ => False
  end /\
  fc_input_source_map a = fc_input_source_map b.
Definition unique_keys (fc : file_coverage) : Prop :=
  NoDup (im_keys (fc_statement_map fc)) /\ NoDup (im_keys (fc_fn_map fc)) /\ NoDup (im_keys (fc_branch_map fc)) /\
  NoDup (im_keys (fc_s fc)) /\ NoDup (im_keys (fc_f fc)) /\ NoDup (im_keys (fc_b fc)) /\
  match fc_b_t fc with Some bt => NoDup (im_keys bt) | None => True end.
Lemma fc_sorted_same : forall fc, unique_keys fc -> same_data (fc_sorted fc) fc.
Proof.
  intros fc (A & B & C & D & E & F & G). unfold same_data, fc_sorted.
  cbn [fc_all fc_path fc_statement_map fc_fn_map fc_branch_map fc_s fc_f fc_b fc_b_t fc_input_source_map].
  repeat split; try (now apply key_sort_perm). destruct (fc_b_t fc); [|exact I]. now apply key_sort_perm.
Qed.
(** The names of the properties of the object *)
Definition field_names (fc : file_coverage) : list string :=
  (["all"; "path"; "statementMap"; "fnMap"; "branchMap"; "s"; "f"; "b"]
   ++ match fc_b_t fc with Some _ => ["bT"] | None => [] end
   ++ match fc_input_source_map fc with Some _ => ["inputSourceMap"] | None => [] end
   ++ ["_coverageSchema"; "hash"])%list.
Theorem literal_is_the_data : forall fc, fc_names_plain fc -> unique_keys fc ->
  exists v fc', eval (snd (coverage_data_object fc)) = Some (JObj v) /\
    map fst v = field_names fc /\
    read_fc (JObj v) = Some fc' /\ same_data fc' fc /\
    prop "_coverageSchema" v = Some (JStr "11020577277169172593") /\
    prop "hash" v = Some (JStr (fst (coverage_data_object fc))).
Proof.
  intros fc H U. exists (fc_value fc), (fc_sorted fc).
  split; [now apply data_object_value|].
  split. { unfold fc_value, field_names. destruct (fc_b_t fc), (fc_input_source_map fc); reflexivity. }
  split; [apply read_fc_value|]. split; [now apply fc_sorted_same|].
  unfold fc_value, coverage_data_object. cbv zeta. cbn [fst]. remember (fc_hash fc) as h. clear.
  split; destruct (fc_b_t fc), (fc_input_source_map fc); reflexivity.
Qed.
(** The record is recovered exactly when its maps are in ascending order of the keys. *)
Definition ascending {A} (m : imap N A) : Prop := StronglySorted key_lt m.
Lemma key_put_last : forall A k (v : A) o, Forall (fun kv => (fst kv < k)%N) o -> key_put k v o = (o ++ [(k, v)])%list.
Proof.
  intros A k v o H. induction H as [|[k' v'] o Hk _ IH]; [reflexivity|]. cbn in *.
  destruct (N.eqb_spec k k'); [lia|]. destruct (N.ltb_spec k k'); [lia|]. now rewrite IH.
Qed.
Lemma key_sort_ascending : forall A (m : imap N A), ascending m -> key_sort m = m.
Proof.
  intros A m H. unfold key_sort.
  assert (K : forall acc, (forall x y, In x acc -> In y m -> (fst x < fst y)%N) -> key_puts m acc = (acc ++ m)%list).
  { induction H as [|[k v] m Hm IH Ha]; intros acc D; [now rewrite app_nil_r|]. cbn [key_puts].
    rewrite key_put_last by (apply Forall_forall; intros x Hx; exact (D x (k, v) Hx (or_introl eq_refl))).
    rewrite IH.
    - now rewrite <- app_assoc.
    - intros x y Hx Hy. apply in_app_iff in Hx as [Hx|[<-|[]]]; [now apply D; [|right]|].
      rewrite Forall_forall in Ha. exact (Ha y Hy). }
  rewrite K; [reflexivity|]. intros x y [].
Qed.
Definition all_ascending (fc : file_coverage) : Prop :=
  ascending (fc_statement_map fc) /\ ascending (fc_fn_map fc) /\ ascending (fc_branch_map fc) /\
  ascending (fc_s fc) /\ ascending (fc_f fc) /\ ascending (fc_b fc) /\
  match fc_b_t fc with Some bt => ascending bt | None => True end.
Theorem literal_recovers_exactly : forall fc, fc_names_plain fc -> all_ascending fc ->
  exists v, eval (snd (coverage_data_object fc)) = Some v /\ read_fc v = Some fc.
Proof.
  intros fc H (A & B & C & D & E & F & G). eexists. split; [now apply data_object_value|].
  rewrite read_fc_value. f_equal. destruct fc as [a p sm fm bm s f b bt i].
  cbn [fc_statement_map fc_fn_map fc_branch_map fc_s fc_f fc_b fc_b_t] in *. unfold fc_sorted.
  cbn [fc_all fc_path fc_statement_map fc_fn_map fc_branch_map fc_s fc_f fc_b fc_b_t fc_input_source_map].
  rewrite !key_sort_ascending by assumption. f_equal. destruct bt as [bt|]; [|reflexivity]. cbn. now rewrite key_sort_ascending.
Qed.
(** A name the raw text cannot carry (no identifier contains a quote) *)
Definition quote_fc : file_coverage :=
  mkFC false "a.js" [] [(0%N, mkFunc (String dquote "") range_default range_default 1%N)] [] [] [(0%N, 0%N)] [] None None.
Theorem unescaped_name_refuted : exists fc, unique_keys fc /\ eval (snd (coverage_data_object fc)) = None.
Proof.
  exists quote_fc. split; [|reflexivity]. repeat split; repeat constructor; intros [].
Qed.
