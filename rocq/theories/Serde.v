(** Deserialization of the istanbul-oxide types from JSON text ([#[derive(Deserialize)]] with
    [serde_json::from_str]), and the round trip with serialization (C48).

    istanbul-oxide types.rs:6-43, range.rs:3-18, source_map.rs:3-31, file_coverage.rs:127-143.
    [serde] 1.0.219 and [serde_json] 1.0.140 (Cargo.lock) are dependencies; the definitions follow what the
    derive macro generates: members by name in any order, unknown members skipped, a repeated known member
    an error, a struct also accepted as an array of its fields in order. *)
From Coq Require Import NArith String Ascii List Bool Lia PeanoNat Permutation.
Import ListNotations.
From Verif Require Import Base IndexMap Decimal Oxide Json CovJson JsonParse.
Open Scope string_scope.

(** ** Strings *)
Definition byte (n : N) : string := ch1 (ascii_of_N n).
(** UTF-8 *)
Definition utf8 (n : N) : string :=
  (if n <? 128 then byte n
   else if n <? 2048 then (byte (192 + n / 64) ++ byte (128 + n mod 64))%string
   else if n <? 65536 then
     (byte (224 + n / 4096) ++ byte (128 + n / 64 mod 64) ++ byte (128 + n mod 64))%string
   else
     (byte (240 + n / 262144) ++ byte (128 + n / 4096 mod 64) ++ byte (128 + n / 64 mod 64) ++ byte (128 + n mod 64))%string)%N.
Definition lead (n : N) : bool := ((55296 <=? n) && (n <? 56320))%N.
Definition trail (n : N) : bool := ((56320 <=? n) && (n <? 57344))%N.
(** serde_json read.rs [parse_unicode_escape]: an unpaired surrogate is an error *)
Fixpoint units (us : list sunit) : option string :=
  match us with
  | [] => Some ""
  | UByte c :: r => option_map (String c) (units r)
  | UHex n :: r =>
      if trail n then None
      else if lead n then
        match r with
        | UHex m :: r' =>
            if trail m then option_map (append (utf8 (65536 + (n - 55296) * 1024 + (m - 56320))%N)) (units r') else None
        | _ => None
        end
      else option_map (append (utf8 n)) (units r)
  end.

(** ** The generic deserializers *)
Definition de_string (v : jv) : option string := match v with VStr us => units us | _ => None end.
Definition de_bool (v : jv) : option bool := match v with VBool b => Some b | _ => None end.
Definition u32_of (n : option N) : option N :=
  match n with Some n => if (n <? u32_mod)%N then Some n else None | None => None end.
Definition de_u32 (v : jv) : option N := match v with VNum n => u32_of n | _ => None end.
Definition de_vec {A} (f : jv -> option A) (v : jv) : option (list A) :=
  match v with VArr l => all_some f l | _ => None end.
Definition de_option {A} (f : jv -> option A) (v : jv) : option (option A) :=
  match v with VNull => Some None | _ => option_map Some (f v) end.
(** What a struct field gets *)
Inductive slot := Given (v : jv) | NoMember | NoElement.
Definition find_slot (ms : list (string * jv)) (k : string) : option slot :=
  match filter (fun kv => String.eqb k (fst kv)) ms with
  | [] => Some NoMember
  | [kv] => Some (Given (snd kv))
  | _ => None
  end.
Definition keyed (ms : list (list sunit * jv)) : option (list (string * jv)) :=
  all_some (fun kv => option_map (fun k => (k, snd kv)) (units (fst kv))) ms.
Fixpoint spread (names : list string) (l : list jv) : option (list slot) :=
  match names, l with
  | [], [] => Some []
  | [], _ :: _ => None
  | _ :: names', [] => option_map (cons NoElement) (spread names' [])
  | _ :: names', v :: l' => option_map (cons (Given v)) (spread names' l')
  end.
(** The fields of a struct with these names *)
Definition fields (names : list string) (v : jv) : option (list slot) :=
  match v with
  | VObj ms => let? kvs := keyed ms in all_some (find_slot kvs) names
  | VArr l => spread names l
  | _ => None
  end.
Definition required {A} (f : jv -> option A) (s : slot) : option A :=
  match s with Given v => f v | _ => None end.
(** [#[serde(default)]] on the field or the struct *)
Definition defaulted {A} (d : A) (f : jv -> option A) (s : slot) : option A :=
  match s with Given v => f v | _ => Some d end.
(** An [Option] field without [default]: a missing member is [None], a missing element an error *)
Definition optional {A} (f : jv -> option A) (s : slot) : option (option A) :=
  match s with Given v => de_option f v | NoMember => Some None | NoElement => None end.
(** serde_json de.rs [MapKey]: the key text is a number token, without escapes *)
Fixpoint plain (us : list sunit) : option string :=
  match us with
  | [] => Some ""
  | UByte c :: r => option_map (String c) (plain r)
  | UHex _ :: _ => None
  end.
Definition u32_key (us : list sunit) : option N :=
  let? s := plain us in
  match number s with Some (n, "") => u32_of n | _ => None end.
(** [IndexMap<u32, _>]: a repeated key keeps its place and takes the later value *)
Definition de_map {A} (f : jv -> option A) (v : jv) : option (imap N A) :=
  match v with
  | VObj ms =>
      let? kvs := all_some (fun kv => let? k := u32_key (fst kv) in let? a := f (snd kv) in Some (k, a)) ms in
      Some (fold_left (fun m kv => im_insert (fst kv) (snd kv) m) kvs [])
  | _ => None
  end.

(** ** The istanbul-oxide types *)
(** range.rs:3-7 *)
Definition de_location (v : jv) : option location :=
  let? fs := fields ["line"; "column"] v in
  match fs with
  | [a; b] => let? l := required de_u32 a in let? c := required de_u32 b in Some (mkLoc l c)
  | _ => None
  end.
(** range.rs:14-18 *)
Definition de_range (v : jv) : option range :=
  let? fs := fields ["start"; "end"] v in
  match fs with
  | [a; b] => let? s := required de_location a in let? e := required de_location b in Some (mkRange s e)
  | _ => None
  end.
(** types.rs:6-12 *)
Definition de_function (v : jv) : option func :=
  let? fs := fields ["name"; "decl"; "loc"; "line"] v in
  match fs with
  | [a; b; c; d] =>
      let? n := required de_string a in let? e := required de_range b in
      let? l := required de_range c in let? k := required de_u32 d in
      Some (mkFunc n e l k)
  | _ => None
  end.
(** types.rs:14-22; a variant is its name, or a one-member object with the value null *)
Definition de_branch_type (v : jv) : option branch_type :=
  let? s := match v with VStr us => units us | VObj [(us, VNull)] => units us | _ => None end in
  if s =? "binary-expr" then Some BinaryExpr else if s =? "default-arg" then Some DefaultArg
  else if s =? "if" then Some BIf else if s =? "switch" then Some BSwitch
  else if s =? "cond-expr" then Some CondExpr else None.
(** types.rs:36-43 *)
Definition de_branch (v : jv) : option branch :=
  let? fs := fields ["loc"; "type"; "locations"; "line"] v in
  match fs with
  | [a; b; c; d] =>
      let? l := optional de_range a in let? t := required de_branch_type b in
      let? ls := required (de_vec de_range) c in let? k := optional de_u32 d in
      Some (mkBranch l t ls k)
  | _ => None
  end.
(** source_map.rs:3-31 *)
Definition de_source_map (v : jv) : option source_map :=
  let? fs := fields ["version"; "file"; "sourceRoot"; "sources"; "sourcesContent"; "names"; "mappings"] v in
  match fs with
  | [a; b; c; d; e; f; g] =>
      let? v := defaulted 3%N de_u32 a in
      let? fi := defaulted None (de_option de_string) b in
      let? r := defaulted None (de_option de_string) c in
      let? s := defaulted [] (de_vec de_string) d in
      let? co := defaulted None (de_option (de_vec (de_option de_string))) e in
      let? n := defaulted [] (de_vec de_string) f in
      let? m := defaulted "" de_string g in
      Some (mkSourceMap v fi r s co n m)
  | _ => None
  end.
(** file_coverage.rs:127-143 *)
Definition de_file_coverage (v : jv) : option file_coverage :=
  let? fs := fields ["all"; "path"; "statementMap"; "fnMap"; "branchMap"; "s"; "f"; "b"; "bT"; "inputSourceMap"] v in
  match fs with
  | [a; b; c; d; e; f; g; h; i; j] =>
      let? al := defaulted false de_bool a in
      let? p := required de_string b in
      let? sm := required (de_map de_range) c in
      let? fm := required (de_map de_function) d in
      let? bm := required (de_map de_branch) e in
      let? s := required (de_map de_u32) f in
      let? fn := required (de_map de_u32) g in
      let? br := required (de_map (de_vec de_u32)) h in
      let? bt := defaulted None (de_option (de_map (de_vec de_u32))) i in
      let? ism := defaulted None (de_option de_source_map) j in
      Some (mkFC al p sm fm bm s fn br bt ism)
  | _ => None
  end.
(** [serde_json::from_str::<T>] *)
Definition from_str {A} (de : jv -> option A) (s : string) : option A := let? v := parse s in de v.

(** ** What [fields] means *)
(** Field [k] of an object: absent and [x] is the default, or present once with a value read as [x] *)
Definition Field {A} (ms : list (list sunit * jv)) (k : string) (f : jv -> option A) (d x : A) : Prop :=
  (x = d /\ forall us v, In (us, v) ms -> units us <> Some k) \/
  (exists l1 us v l2, ms = (l1 ++ (us, v) :: l2)%list /\ units us = Some k /\ f v = Some x /\
     forall us' v', In (us', v') (l1 ++ l2)%list -> units us' <> Some k).
Definition Keys (ms : list (list sunit * jv)) : Prop := forall us v, In (us, v) ms -> units us <> None.
(** Field number [i] of an array *)
Definition Place {A} (l : list jv) (i : nat) (f : jv -> option A) (d x : A) : Prop :=
  match nth_error l i with Some v => f v = Some x | None => x = d end.

Lemma keyed_keys : forall ms, (exists kvs, keyed ms = Some kvs) <-> Keys ms.
Proof.
  unfold keyed, Keys. induction ms as [|[us v] ms IH]; cbn [all_some fst snd].
  - split; [intros _ us v []|]. eauto.
  - split.
    + intros (kvs & H) us' v' [E|Hin].
      * injection E as -> ->. destruct (units us'); [discriminate|discriminate H].
      * destruct (units us); [|discriminate H]. cbn [option_map obind] in H.
        revert us' v' Hin. apply IH. destruct (all_some _ ms); [eauto|discriminate H].
    + intros H. destruct (units us) as [k|] eqn:E; [|exfalso; now apply (H us v (or_introl eq_refl))].
      destruct (proj2 IH) as (kvs & Ek); [intros us' v' Hin; apply (H us' v'); now right|].
      cbn [option_map obind]. rewrite Ek. cbn [obind]. eauto.
Qed.
Lemma keyed_filter : forall ms kvs k, keyed ms = Some kvs ->
  map snd (filter (fun kv => String.eqb k (fst kv)) kvs) =
  map snd (filter (fun kv => match units (fst kv) with Some k' => String.eqb k k' | None => false end) ms).
Proof.
  unfold keyed. induction ms as [|[us v] ms IH]; intros kvs k H; cbn [all_some fst snd] in H; [injection H as <-; reflexivity|].
  destruct (units us) as [k'|] eqn:E; [|discriminate]. cbn [option_map obind] in H.
  destruct (all_some _ ms) as [kvs'|] eqn:E'; [|discriminate]. injection H as <-. cbn [filter fst]. rewrite E.
  destruct (String.eqb k k'); cbn [map snd]; now rewrite (IH kvs' k eq_refl).
Qed.
Lemma filter_none : forall ms (k : string),
  filter (fun kv : list sunit * jv => match units (fst kv) with Some k' => String.eqb k k' | None => false end) ms = [] <->
  forall us v, In (us, v) ms -> units us <> Some k.
Proof.
  intros ms k. split.
  - intros H us v Hin E. assert (F : In (us, v) []) by (rewrite <- H; apply filter_In; cbn [fst]; rewrite E, String.eqb_refl; auto).
    destruct F.
  - intros H. induction ms as [|[us v] ms IH]; [reflexivity|]. cbn [filter fst].
    rewrite IH by (intros us' v' Hin; apply (H us' v'); now right).
    destruct (units us) as [k'|] eqn:E; [|reflexivity]. destruct (String.eqb_spec k k') as [->|]; [|reflexivity].
    exfalso. now apply (H us v (or_introl eq_refl)).
Qed.
Lemma filter_one : forall ms (k : string) u0 v0,
  filter (fun kv : list sunit * jv => match units (fst kv) with Some k' => String.eqb k k' | None => false end) ms = [(u0, v0)] <->
  exists l1 l2, ms = (l1 ++ (u0, v0) :: l2)%list /\ units u0 = Some k /\
     forall us' v', In (us', v') (l1 ++ l2)%list -> units us' <> Some k.
Proof.
  intros ms k u0 v0. split.
  - induction ms as [|[us v] ms IH]; [discriminate|]. cbn [filter fst].
    destruct (match units us with Some k' => String.eqb k k' | None => false end) eqn:E.
    + intros H. injection H as -> -> H. exists [], ms. split; [reflexivity|]. split.
      * destruct (units u0) as [k'|]; [|discriminate]. apply String.eqb_eq in E. now subst.
      * now apply filter_none.
    + intros H. destruct (IH H) as (l1 & l2 & -> & U & F). exists ((us, v) :: l1), l2. split; [reflexivity|]. split; [exact U|].
      intros us' v' [X|X]; [|eapply F; exact X]. injection X as <- <-. intros Y. rewrite Y, String.eqb_refl in E. discriminate.
  - intros (l1 & l2 & -> & U & F). rewrite filter_app. cbn [filter fst]. rewrite U, String.eqb_refl.
    rewrite (proj2 (filter_none l1 k)), (proj2 (filter_none l2 k)); [reflexivity| |];
      intros us v Hin; apply (F us v); apply in_app_iff; auto.
Qed.
(** One field of an object *)
Lemma find_slot_field : forall A ms kvs k (f : jv -> option A) d x, keyed ms = Some kvs ->
  ((exists s, find_slot kvs k = Some s /\ defaulted d f s = Some x) <-> Field ms k f d x).
Proof.
  intros A ms kvs k f d x H. unfold find_slot, Field. pose proof (keyed_filter ms kvs k H) as E.
  set (g := fun kv : list sunit * jv => match units (fst kv) with Some k' => String.eqb k k' | None => false end) in E.
  destruct (filter (fun kv : string * jv => String.eqb k (fst kv)) kvs) as [|[k1 v1] [|kv2 l]].
  - destruct (filter g ms) as [|] eqn:F; [|discriminate]. split.
    + intros (s & S & D). injection S as <-. cbn in D. injection D as <-. left. split; [reflexivity|]. now apply filter_none.
    + intros [[-> _]|(l1 & us & v & l2 & -> & U & _ & N)].
      * exists NoMember. split; reflexivity.
      * exfalso. assert (X : filter g (l1 ++ (us, v) :: l2)%list = [(us, v)]) by (apply filter_one; eauto). congruence.
  - destruct (filter g ms) as [|[u0 v0] [|]] eqn:F; [discriminate| |discriminate]. cbn in E. injection E as ->. split.
    + intros (s & S & D). injection S as <-. cbn in D. right.
      apply filter_one in F as (l1 & l2 & -> & U & N). exists l1, u0, v0, l2. auto.
    + intros [[_ N]|(l1 & us & v & l2 & -> & U & D & N)].
      * apply filter_none in N. change (filter g ms = []) in N. congruence.
      * assert (X : filter g (l1 ++ (us, v) :: l2)%list = [(us, v)]) by (apply filter_one; eauto).
        rewrite F in X. injection X as -> ->. exists (Given v). cbn. auto.
  - destruct (filter g ms) as [|a [|b r]] eqn:F; try discriminate. split.
    + intros (s & S & _). discriminate.
    + intros [[_ N]|(l1 & us & v & l2 & -> & U & D & N)].
      * apply filter_none in N. change (filter g ms = []) in N. congruence.
      * assert (X : filter g (l1 ++ (us, v) :: l2)%list = [(us, v)]) by (apply filter_one; eauto). congruence.
Qed.

(** ** Reading back what was printed *)
(** The value the printer's text stands for *)
Definition unit_of (c : ascii) : sunit :=
  match nat_of_ascii c with
  | 8 | 9 | 10 | 12 | 13 => UByte c
  | n => if Nat.ltb n 32 then UHex (N.of_nat n) else UByte c
  end%nat.
Definition ustr (s : string) : list sunit := map unit_of (list_ascii_of_string s).
Fixpoint embed (j : json) : jv :=
  match j with
  | JNull => VNull
  | JBool b => VBool b
  | JNum n => VNum (Some n)
  | JStr s => VStr (ustr s)
  | JArr l => VArr (map embed l)
  | JObj o => VObj (map (fun kv => (ustr (fst kv), embed (snd kv))) o)
  end.
Lemma chars_char : forall c us s, Chars us s -> Chars (unit_of c :: us) (escape_char c ++ s).
Proof.
  intros c us s H.
  destruct c as [[] [] [] [] [] [] [] []];
    first [apply C_byte; [cbv; lia|discriminate|discriminate|exact H]
          |apply C_short; [cbv; tauto|exact H]
          |apply C_hex4; [reflexivity|exact H]].
Qed.
Lemma chars_escape : forall s, Chars (ustr s) (escape s).
Proof. induction s as [|c s IH]; [constructor|]. now apply chars_char. Qed.
Lemma value_print : forall j, Value (embed j) (print j).
Proof.
  Transparent quoted.
  assert (EL : forall l, Forall (fun j => Value (embed j) (print j)) l -> forall x, Value (embed x) (print x) ->
    exists s, Elements (map embed (x :: l)) s /\ print x ++ print_tail l = s ++ "]").
  { intros l H. induction H as [|y l Hy _ IH]; intros x Hx.
    - exists ("" ++ print x ++ ""). split; [constructor; [constructor|exact Hx|constructor]|]. cbn [append]. now rewrite sapp_nil.
    - destruct (IH y Hy) as (s & E & P). exists ("" ++ print x ++ "" ++ "," ++ s).
      split; [constructor; [constructor|exact Hx|constructor|exact E]|]. cbn [print_tail]. rewrite P.
      cbn [append]. now rewrite sapp_assoc. }
  assert (OB : forall o, Forall (fun kv => Value (embed (snd kv)) (print (snd kv))) o -> forall k x, Value (embed x) (print x) ->
    exists s, Members (map (fun kv => (ustr (fst kv), embed (snd kv))) ((k, x) :: o)) s /\
      quoted k ++ ":" ++ print x ++ print_otail o = s ++ "}").
  { intros o H. induction H as [|[k' y] o Hy _ IH]; intros k x Hx.
    - exists ("" ++ String dquote (escape k ++ String dquote ("" ++ ":" ++ "" ++ print x ++ ""))). split.
      + constructor; try constructor; [apply chars_escape|exact Hx].
      + unfold quoted. cbn [append ch1]. rewrite !sapp_assoc. cbn [append]. now rewrite sapp_nil.
    - destruct (IH k' y Hy) as (s & E & P).
      exists ("" ++ String dquote (escape k ++ String dquote ("" ++ ":" ++ "" ++ print x ++ "" ++ "," ++ s))). split.
      + change (map (fun kv : string * json => (ustr (fst kv), embed (snd kv))) ((k, x) :: (k', y) :: o))
          with ((ustr k, embed x) :: map (fun kv : string * json => (ustr (fst kv), embed (snd kv))) ((k', y) :: o)).
        apply B_more; try constructor; [apply chars_escape|exact Hx|exact E].
      + cbn [print_otail]. rewrite P. unfold quoted. cbn [append ch1]. rewrite !sapp_assoc. cbn [append]. now rewrite !sapp_assoc. }
  intros j. induction j as [|b|n|s|l IH|o IH] using json_ind'.
  - constructor.
  - destruct b; constructor.
  - constructor. constructor.
  - constructor. apply chars_escape.
  - destruct l as [|x l]; [apply (J_arr0 ""); constructor|]. inversion IH as [|? ? Hx Hl]; subst.
    destruct (EL l Hl x Hx) as (s & E & P). rewrite print_arr, P. now constructor.
  - destruct o as [|[k x] o]; [apply (J_obj0 ""); constructor|]. inversion IH as [|? ? Hx Hl]; subst.
    destruct (OB o Hl k x Hx) as (s & E & P). rewrite print_obj, P. now constructor.
  Opaque quoted.
Qed.
(** Printing a value and reading the text gives the value back. *)
Theorem parse_print : forall j, parse (print j) = Some (embed j).
Proof.
  intros j. apply parse_grammar. rewrite <- (sapp_nil (print j)). change (print j ++ "") with ("" ++ print j ++ "").
  constructor; [constructor|apply value_print|constructor].
Qed.
Lemma units_ustr : forall s, units (ustr s) = Some s.
Proof.
  induction s as [|c s IH]; [reflexivity|].
  change (ustr (String c s)) with (unit_of c :: ustr s).
  destruct c as [[] [] [] [] [] [] [] []]; cbn [units]; unfold unit_of; cbn [nat_of_ascii]; cbv - [units ustr option_map append];
    rewrite IH; reflexivity.
Qed.
Lemma keyed_embed : forall o, keyed (map (fun kv => (ustr (fst kv), embed (snd kv))) o) =
  Some (map (fun kv => (fst kv, embed (snd kv))) o).
Proof.
  unfold keyed. induction o as [|[k x] o IH]; [reflexivity|]. cbn [map all_some fst snd]. rewrite units_ustr. cbn [option_map obind].
  now rewrite IH.
Qed.
Lemma fields_embed : forall names o, fields names (embed (JObj o)) =
  all_some (find_slot (map (fun kv => (fst kv, embed (snd kv))) o)) names.
Proof. intros names o. cbn [embed fields]. now rewrite keyed_embed. Qed.
Lemma de_u32_embed : forall n, is_u32 n -> de_u32 (embed (JNum n)) = Some n.
Proof. intros n H. cbn. unfold is_u32 in H. apply N.ltb_lt in H. now rewrite H. Qed.
Lemma de_string_embed : forall s, de_string (embed (JStr s)) = Some s.
Proof. exact units_ustr. Qed.
Lemma all_some_embed : forall A (f : jv -> option A) (g : A -> json) (P : A -> Prop) l,
  (forall a, P a -> f (embed (g a)) = Some a) -> Forall P l -> all_some f (map embed (map g l)) = Some l.
Proof.
  intros A f g P l H F. induction F as [|a l Pa _ IH]; [reflexivity|]. cbn [map all_some]. rewrite H by exact Pa. cbn [obind].
  now rewrite IH.
Qed.
Lemma de_vec_embed : forall A (f : jv -> option A) (g : A -> json) (P : A -> Prop) l,
  (forall a, P a -> f (embed (g a)) = Some a) -> Forall P l -> de_vec f (embed (JArr (map g l))) = Some l.
Proof. intros A f g P l H F. cbn [embed de_vec]. now apply all_some_embed with P. Qed.
Lemma de_option_embed : forall A (f : jv -> option A) (g : A -> json) (P : A -> Prop) o,
  (forall a, P a -> f (embed (g a)) = Some a) -> f VNull = None -> (forall a, o = Some a -> P a) ->
  de_option f (embed (opt_json g o)) = Some o.
Proof.
  intros A f g P [a|] H N F; [|reflexivity]. cbn [opt_json]. specialize (H a (F a eq_refl)). unfold de_option.
  destruct (embed (g a)); [congruence| | | | |]; now rewrite H.
Qed.
Lemma u32_key_dec : forall n, is_u32 n -> u32_key (ustr (dec n)) = Some n.
Proof.
  intros n H. unfold u32_key.
  assert (P : plain (ustr (dec n)) = Some (dec n)).
  { pose proof (dec_digits n) as D. generalize (dec n) D. clear. intros s. induction s as [|c s IH]; [reflexivity|].
    cbn [all_chars]. intros D. apply andb_prop in D as [Dc D]. change (ustr (String c s)) with (unit_of c :: ustr s).
    assert (U : unit_of c = UByte c) by (destruct c as [[] [] [] [] [] [] [] []]; cbv in Dc; try discriminate Dc; reflexivity).
    rewrite U. cbn [plain]. now rewrite IH. }
  rewrite P. cbn [obind]. rewrite <- (sapp_nil (dec n)).
  rewrite (number_complete (Some n) (dec n) "" (N_int n) I). cbn. unfold is_u32 in H. apply N.ltb_lt in H. now rewrite H.
Qed.
Definition map_u32 {A} (P : A -> Prop) (m : imap N A) : Prop :=
  NoDup (map fst m) /\ Forall (fun kv => is_u32 (fst kv) /\ P (snd kv)) m.
Lemma inserts_fresh : forall A (l m : imap N A), NoDup (map fst (m ++ l)) ->
  fold_left (fun m kv => im_insert (fst kv) (snd kv) m) l m = (m ++ l)%list.
Proof.
  intros A. induction l as [|[k a] l IH]; intros m H; [now rewrite app_nil_r|]. cbn [fold_left fst snd].
  assert (F : ~ In k (im_keys m)).
  { rewrite map_app in H. cbn [map fst] in H. apply NoDup_remove_2 in H. intros K. apply H. apply in_app_iff. now left. }
  rewrite im_insert_fresh by exact F. rewrite IH; rewrite <- app_assoc; [reflexivity|exact H].
Qed.
Lemma de_map_embed : forall A (f : jv -> option A) (g : A -> json) (P : A -> Prop) m,
  (forall a, P a -> f (embed (g a)) = Some a) -> map_u32 P m -> de_map f (embed (map_json g m)) = Some m.
Proof.
  intros A f g P m H [ND F]. unfold map_json. cbn [embed de_map]. rewrite map_map.
  assert (E : all_some (fun kv : list sunit * jv => let? k := u32_key (fst kv) in let? a := f (snd kv) in Some (k, a))
      (map (fun x : N * A => (ustr (fst (dec (fst x), g (snd x))), embed (snd (dec (fst x), g (snd x))))) m) = Some m).
  { clear ND. induction F as [|[k a] m [Fk Fa] _ IH]; [reflexivity|]. cbn [map all_some fst snd] in *.
    rewrite u32_key_dec by exact Fk. cbn [obind]. rewrite H by exact Fa. cbn [obind]. now rewrite IH. }
  rewrite E. cbn [obind]. now rewrite inserts_fresh.
Qed.

Definition loc_u32 (l : location) : Prop := is_u32 (line l) /\ is_u32 (column l).
Definition range_u32 (r : range) : Prop := loc_u32 (rstart r) /\ loc_u32 (rend r).
Definition func_u32 (f : func) : Prop := range_u32 (f_decl f) /\ range_u32 (f_loc f) /\ is_u32 (f_line f).
Definition branch_u32 (b : branch) : Prop :=
  (forall r, b_loc b = Some r -> range_u32 r) /\ Forall range_u32 (b_locations b) /\ (forall n, b_line b = Some n -> is_u32 n).
(** Every number fits in u32 and no table has a key twice: any value of the Rust type *)
Definition fc_u32 (fc : file_coverage) : Prop :=
  map_u32 range_u32 (fc_statement_map fc) /\ map_u32 func_u32 (fc_fn_map fc) /\ map_u32 branch_u32 (fc_branch_map fc) /\
  map_u32 is_u32 (fc_s fc) /\ map_u32 is_u32 (fc_f fc) /\ map_u32 (Forall is_u32) (fc_b fc) /\
  (forall m, fc_b_t fc = Some m -> map_u32 (Forall is_u32) m) /\
  (forall s, fc_input_source_map fc = Some s -> is_u32 (sm_version s)).

Ltac slots := cbn [map all_some find_slot filter fst snd String.eqb Ascii.eqb Bool.eqb obind app field_opt].
Lemma de_location_embed : forall l, loc_u32 l -> de_location (embed (loc_json l)) = Some l.
Proof.
  intros [l c] [Hl Hc]. unfold de_location, loc_json. rewrite fields_embed. unfold find_slot. slots. cbn [required line column].
  rewrite !de_u32_embed by assumption. reflexivity.
Qed.
Lemma de_range_embed : forall r, range_u32 r -> de_range (embed (range_json r)) = Some r.
Proof.
  intros [s e] [Hs He]. unfold de_range, range_json. rewrite fields_embed. unfold find_slot. slots. cbn [required rstart rend].
  rewrite !de_location_embed by assumption. reflexivity.
Qed.
Lemma de_function_embed : forall f, func_u32 f -> de_function (embed (func_json f)) = Some f.
Proof.
  intros [n d l k] (Hd & Hl & Hk). unfold de_function, func_json. rewrite fields_embed. unfold find_slot. slots.
  cbn [required f_name f_decl f_loc f_line] in *.
  rewrite de_string_embed. cbn [obind]. rewrite !de_range_embed by assumption. cbn [obind].
  rewrite de_u32_embed by assumption. reflexivity.
Qed.
Lemma de_branch_type_embed : forall t, de_branch_type (embed (JStr (branch_type_str t))) = Some t.
Proof. intros []; reflexivity. Qed.
Lemma de_branch_embed : forall b, branch_u32 b -> de_branch (embed (branch_json b)) = Some b.
Proof.
  intros [l t ls k] (Hl & Hls & Hk). unfold de_branch, branch_json. rewrite fields_embed. unfold find_slot. slots.
  cbn [required optional b_loc b_type b_locations b_line] in *.
  rewrite (de_option_embed _ de_range range_json range_u32 l de_range_embed eq_refl Hl). cbn [obind].
  rewrite de_branch_type_embed. cbn [obind].
  rewrite (de_vec_embed _ de_range range_json range_u32 ls de_range_embed Hls). cbn [obind].
  rewrite (de_option_embed _ de_u32 JNum is_u32 k de_u32_embed eq_refl Hk). reflexivity.
Qed.
Lemma de_some : forall A (f : jv -> option A) v a, f v = Some a -> f VNull = None -> de_option f v = Some (Some a).
Proof. intros A f v a H N. unfold de_option. destruct v; [congruence| | | | |]; now rewrite H. Qed.
Lemma de_strs_embed : forall l, de_vec de_string (embed (strs_json l)) = Some l.
Proof.
  intros l. apply (de_vec_embed _ de_string JStr (fun _ => True)); [intros; apply de_string_embed|]. now apply Forall_forall.
Qed.
Lemma de_contents_embed : forall l, de_vec (de_option de_string) (embed (JArr (map (opt_json JStr) l))) = Some l.
Proof.
  intros l. apply (de_vec_embed _ (de_option de_string) (opt_json JStr) (fun _ => True)).
  - intros o _. apply (de_option_embed _ de_string JStr (fun _ => True)); auto. intros; apply de_string_embed.
  - now apply Forall_forall.
Qed.
Lemma de_source_map_embed : forall s, is_u32 (sm_version s) -> de_source_map (embed (source_map_json s)) = Some s.
Proof.
  intros [v f r s c n m] H. cbn in H. unfold de_source_map, source_map_json.
  cbn [sm_version sm_file sm_source_root sm_sources sm_sources_content sm_names sm_mappings].
  destruct f as [f|], r as [r|], c as [c|]; rewrite fields_embed; unfold find_slot; slots; cbn [defaulted];
    rewrite de_u32_embed by exact H; cbn [obind];
    try (rewrite (de_some _ _ _ _ (de_string_embed f) eq_refl); cbn [obind]);
    try (rewrite (de_some _ _ _ _ (de_string_embed r) eq_refl); cbn [obind]);
    rewrite de_strs_embed; cbn [obind];
    try (rewrite (de_some _ _ _ _ (de_contents_embed c) eq_refl); cbn [obind]);
    rewrite de_strs_embed; cbn [obind]; rewrite de_string_embed; reflexivity.
Qed.
Lemma de_nums_embed : forall l, Forall is_u32 l -> de_vec de_u32 (embed (nums_json l)) = Some l.
Proof. intros l H. exact (de_vec_embed _ de_u32 JNum is_u32 l de_u32_embed H). Qed.
Lemma de_file_coverage_embed : forall fc, fc_u32 fc -> de_file_coverage (embed (fc_json fc)) = Some fc.
Proof.
  intros [a p sm fm bm s f b bt i] (H1 & H2 & H3 & H4 & H5 & H6 & H7 & H8). unfold de_file_coverage, fc_json, fc_fields.
  cbn [fc_all fc_path fc_statement_map fc_fn_map fc_branch_map fc_s fc_f fc_b fc_b_t fc_input_source_map] in *.
  assert (T1 : forall m, bt = Some m -> de_option (de_map (de_vec de_u32)) (embed (map_json nums_json m)) = Some (Some m)).
  { intros m Hm. apply de_some; [|reflexivity]. apply (de_map_embed _ _ _ (Forall is_u32)); [exact de_nums_embed|now apply H7]. }
  assert (T2 : forall m, i = Some m -> de_option de_source_map (embed (source_map_json m)) = Some (Some m)).
  { intros m Hm. apply de_some; [|reflexivity]. apply de_source_map_embed. now apply H8. }
  destruct bt as [bt|], i as [i|]; rewrite fields_embed; unfold find_slot; slots; cbn [defaulted required];
    cbn [embed de_bool obind]; change (VStr (ustr p)) with (embed (JStr p)); rewrite de_string_embed; cbn [obind];
    rewrite (de_map_embed _ _ _ range_u32 sm de_range_embed H1); cbn [obind];
    rewrite (de_map_embed _ _ _ func_u32 fm de_function_embed H2); cbn [obind];
    rewrite (de_map_embed _ _ _ branch_u32 bm de_branch_embed H3); cbn [obind];
    rewrite (de_map_embed _ _ _ is_u32 s de_u32_embed H4); cbn [obind];
    rewrite (de_map_embed _ _ _ is_u32 f de_u32_embed H5); cbn [obind];
    rewrite (de_map_embed _ _ _ (Forall is_u32) b de_nums_embed H6); cbn [obind];
    try (rewrite (T1 bt eq_refl); cbn [obind]); try (rewrite (T2 i eq_refl); cbn [obind]); reflexivity.
Qed.
(** Serializing a record and deserializing the text gives the record back, tables in order. *)
Theorem record_round_trip : forall fc, fc_u32 fc -> from_str de_file_coverage (fc_text fc) = Some fc.
Proof. intros fc H. unfold from_str, fc_text. rewrite parse_print. cbn [obind]. now apply de_file_coverage_embed. Qed.

(** ** Reading any object *)
(** Field [k] is present once, with a value read as [x]. *)
Definition Present {A} (ms : list (list sunit * jv)) (k : string) (f : jv -> option A) (x : A) : Prop :=
  exists l1 us v l2, ms = (l1 ++ (us, v) :: l2)%list /\ units us = Some k /\ f v = Some x /\
     forall us' v', In (us', v') (l1 ++ l2)%list -> units us' <> Some k.
Lemma find_slot_present : forall A ms kvs k (f : jv -> option A) x, keyed ms = Some kvs ->
  ((exists s, find_slot kvs k = Some s /\ required f s = Some x) <-> Present ms k f x).
Proof.
  intros A ms kvs k f x H.
  pose proof (find_slot_field _ ms kvs k (fun v => option_map Some (f v)) None (Some x) H) as E. unfold Field in E.
  split.
  - intros (s & S & R). destruct s as [v| |]; try discriminate R. cbn in R.
    destruct (proj1 E) as [[? _]|(l1 & us & v' & l2 & A1 & A2 & A3 & A4)]; [|discriminate|].
    + exists (Given v). split; [exact S|]. cbn. now rewrite R.
    + exists l1, us, v', l2. destruct (f v') as [y|]; [|discriminate]. injection A3 as ->. auto.
  - intros (l1 & us & v' & l2 & A1 & A2 & A3 & A4). destruct (proj2 E) as (s & S & R).
    + right. exists l1, us, v', l2. rewrite A3. auto.
    + exists s. split; [exact S|]. destruct s as [w| |]; cbn in *; try discriminate R. destruct (f w); [|discriminate]. now injection R as ->.
Qed.
Lemma find_slot_optional : forall A ms kvs k (f : jv -> option A) x, keyed ms = Some kvs ->
  ((exists s, find_slot kvs k = Some s /\ optional f s = Some x) <-> Field ms k (de_option f) None x).
Proof.
  intros A ms kvs k f x H. rewrite <- (find_slot_field _ ms kvs k (de_option f) None x H).
  split; intros (s & S & R); exists s; (split; [exact S|]).
  - destruct s as [v| |]; try exact R. discriminate.
  - destruct s as [v| |]; try exact R. unfold find_slot in S. destruct (filter _ kvs) as [|? [|]]; discriminate.
Qed.
Ltac peel_slots H :=
  repeat match type of H with
  | obind (option_map ?f ?o) _ = Some _ => destruct o eqn:?; [|discriminate H]; cbn [option_map obind] in H
  | obind ?o _ = Some _ => destruct o eqn:?; [|discriminate H]; cbn [obind] in H
  end.
(** From the fields to the slots and back *)
Ltac struct_fwd H :=
  cbn [fields] in H; destruct (keyed _) eqn:?; [|discriminate H]; cbn [obind all_some] in H;
  repeat match type of H with
  | context [find_slot ?l ?k] => destruct (find_slot l k) eqn:?; [|discriminate H]; cbn [obind] in H
  end; peel_slots H; injection H as <-.
Ltac field_fwd :=
  match goal with
  | K : keyed ?ms = Some ?kvs |- Keys ?ms => apply keyed_keys; eauto
  | K : keyed ?ms = Some ?kvs |- Present ?ms _ _ _ => apply (find_slot_present _ _ _ _ _ _ K); eauto
  | K : keyed ?ms = Some ?kvs |- Field ?ms _ _ _ _ =>
      first [apply (find_slot_field _ _ _ _ _ _ _ K); eauto; fail|apply (find_slot_optional _ _ _ _ _ _ K); eauto; fail]
  end.
Theorem read_location : forall ms l, de_location (VObj ms) = Some l <->
  Keys ms /\ Present ms "line" de_u32 (line l) /\ Present ms "column" de_u32 (column l).
Proof.
  intros ms l. unfold de_location. split.
  - intros H. struct_fwd H. cbn [line column]. split; [field_fwd|split; field_fwd].
  - intros (K & A & B). apply keyed_keys in K as (kvs & K). cbn [fields]. rewrite K. cbn [obind all_some].
    apply (find_slot_present _ _ _ _ _ _ K) in A as (a & A & A'), B as (b & B & B').
    rewrite A, B. cbn [obind]. rewrite A', B'. now destruct l.
Qed.
Theorem read_range_spec : forall ms r, de_range (VObj ms) = Some r <->
  Keys ms /\ Present ms "start" de_location (rstart r) /\ Present ms "end" de_location (rend r).
Proof.
  intros ms l. unfold de_range. split.
  - intros H. struct_fwd H. cbn [rstart rend]. split; [field_fwd|split; field_fwd].
  - intros (K & A & B). apply keyed_keys in K as (kvs & K). cbn [fields]. rewrite K. cbn [obind all_some].
    apply (find_slot_present _ _ _ _ _ _ K) in A as (a & A & A'), B as (b & B & B').
    rewrite A, B. cbn [obind]. rewrite A', B'. now destruct l.
Qed.
Theorem read_function : forall ms f, de_function (VObj ms) = Some f <->
  Keys ms /\ Present ms "name" de_string (f_name f) /\ Present ms "decl" de_range (f_decl f) /\
  Present ms "loc" de_range (f_loc f) /\ Present ms "line" de_u32 (f_line f).
Proof.
  intros ms l. unfold de_function. split.
  - intros H. struct_fwd H. cbn [f_name f_decl f_loc f_line]. repeat (split; [field_fwd|]). field_fwd.
  - intros (K & A & B & C & D). apply keyed_keys in K as (kvs & K). cbn [fields]. rewrite K. cbn [obind all_some].
    apply (find_slot_present _ _ _ _ _ _ K) in A as (a & A & A'), B as (b & B & B'), C as (c & C & C'), D as (d & D & D').
    rewrite A, B, C, D. cbn [obind]. rewrite A', B', C'. cbn [obind]. rewrite D'. now destruct l.
Qed.
Theorem read_branch_spec : forall ms b, de_branch (VObj ms) = Some b <->
  Keys ms /\ Field ms "loc" (de_option de_range) None (b_loc b) /\ Present ms "type" de_branch_type (b_type b) /\
  Present ms "locations" (de_vec de_range) (b_locations b) /\ Field ms "line" (de_option de_u32) None (b_line b).
Proof.
  intros ms l. unfold de_branch. split.
  - intros H. struct_fwd H. cbn [b_loc b_type b_locations b_line]. repeat (split; [field_fwd|]). field_fwd.
  - intros (K & A & B & C & D). apply keyed_keys in K as (kvs & K). cbn [fields]. rewrite K. cbn [obind all_some].
    apply (find_slot_optional _ _ _ _ _ _ K) in A as (a & A & A'), D as (d & D & D').
    apply (find_slot_present _ _ _ _ _ _ K) in B as (b & B & B'), C as (c & C & C').
    rewrite A, B, C, D. cbn [obind]. rewrite A', B'. cbn [obind]. rewrite C', D'. now destruct l.
Qed.
Theorem read_source_map_spec : forall ms s, de_source_map (VObj ms) = Some s <->
  Keys ms /\ Field ms "version" de_u32 3%N (sm_version s) /\ Field ms "file" (de_option de_string) None (sm_file s) /\
  Field ms "sourceRoot" (de_option de_string) None (sm_source_root s) /\ Field ms "sources" (de_vec de_string) [] (sm_sources s) /\
  Field ms "sourcesContent" (de_option (de_vec (de_option de_string))) None (sm_sources_content s) /\
  Field ms "names" (de_vec de_string) [] (sm_names s) /\ Field ms "mappings" de_string "" (sm_mappings s).
Proof.
  intros ms l. unfold de_source_map. split.
  - intros H. struct_fwd H.
    cbn [sm_version sm_file sm_source_root sm_sources sm_sources_content sm_names sm_mappings]. repeat (split; [field_fwd|]). field_fwd.
  - intros (K & A & B & C & D & E & F & G). apply keyed_keys in K as (kvs & K). cbn [fields]. rewrite K. cbn [obind all_some].
    apply (find_slot_field _ _ _ _ _ _ _ K) in A as (a & A & A'), B as (b & B & B'), C as (c & C & C'), D as (d & D & D'),
      E as (e & E & E'), F as (f & F & F'), G as (g & G & G').
    rewrite A, B, C, D, E, F, G. cbn [obind]. rewrite A', B', C', D', E', F', G'. now destruct l.
Qed.
Theorem read_file_coverage : forall ms fc, de_file_coverage (VObj ms) = Some fc <->
  Keys ms /\ Field ms "all" de_bool false (fc_all fc) /\ Present ms "path" de_string (fc_path fc) /\
  Present ms "statementMap" (de_map de_range) (fc_statement_map fc) /\ Present ms "fnMap" (de_map de_function) (fc_fn_map fc) /\
  Present ms "branchMap" (de_map de_branch) (fc_branch_map fc) /\ Present ms "s" (de_map de_u32) (fc_s fc) /\
  Present ms "f" (de_map de_u32) (fc_f fc) /\ Present ms "b" (de_map (de_vec de_u32)) (fc_b fc) /\
  Field ms "bT" (de_option (de_map (de_vec de_u32))) None (fc_b_t fc) /\
  Field ms "inputSourceMap" (de_option de_source_map) None (fc_input_source_map fc).
Proof.
  intros ms l. unfold de_file_coverage. split.
  - intros H. struct_fwd H.
    cbn [fc_all fc_path fc_statement_map fc_fn_map fc_branch_map fc_s fc_f fc_b fc_b_t fc_input_source_map].
    repeat (split; [field_fwd|]). field_fwd.
  - intros (K & A & B & C & D & E & F & G & H & I & J). apply keyed_keys in K as (kvs & K). cbn [fields]. rewrite K. cbn [obind all_some].
    apply (find_slot_field _ _ _ _ _ _ _ K) in A as (a & A & A'), I as (i & I & I'), J as (j & J & J').
    apply (find_slot_present _ _ _ _ _ _ K) in B as (b & B & B'), C as (c & C & C'), D as (d & D & D'),
      E as (e & E & E'), F as (f & F & F'), G as (g & G & G'), H as (h & H & H').
    rewrite A, B, C, D, E, F, G, H, I, J. cbn [obind]. rewrite A', B', C', D', E', F', G', H', I', J'. now destruct l.
Qed.
(** A table key is the canonical decimal text of a u32, written without escapes. *)
Theorem table_key : forall us n, u32_key us = Some n <-> us = map UByte (list_ascii_of_string (dec n)) /\ is_u32 n.
Proof.
  assert (P : forall us s, plain us = Some s <-> us = map UByte (list_ascii_of_string s)).
  { induction us as [|[c|m] us IH]; intros [|d s]; cbn [plain list_ascii_of_string map]; try (split; [reflexivity || discriminate|reflexivity || discriminate]).
    - split; [|discriminate]. destruct (plain us); discriminate.
    - specialize (IH s). destruct (plain us) as [t|]; cbn [option_map]; split.
      + intros H. injection H as -> ->. f_equal. now apply IH.
      + intros H. injection H as -> H. apply IH in H. congruence.
      + discriminate.
      + intros H. injection H as -> H. apply IH in H. discriminate. }
  intros us n. unfold u32_key. split.
  - destruct (plain us) as [s|] eqn:E; [|discriminate]. cbn [obind]. apply P in E as ->.
    destruct (number s) as [[m r]|] eqn:Q; [|discriminate]. destruct r as [|]; [|discriminate].
    apply number_sound in Q as (t & Q & ->). intros H. unfold u32_of in H. destruct m as [m|]; [|discriminate].
    destruct (N.ltb_spec m u32_mod) as [L|]; [|discriminate]. injection H as ->. inversion Q; subst.
    rewrite sapp_nil. now split.
  - intros [-> H]. rewrite (proj2 (P _ (dec n)) eq_refl). cbn [obind]. rewrite <- (sapp_nil (dec n)).
    rewrite (number_complete (Some n) (dec n) "" (N_int n) I). cbn. unfold is_u32 in H. apply N.ltb_lt in H. now rewrite H.
Qed.
Fixpoint last_value {A} (k : N) (l : list (N * A)) : option A :=
  match l with
  | [] => None
  | (k', a) :: l' => match last_value k l' with Some b => Some b | None => if N.eqb k k' then Some a else None end
  end.
Lemma last_value_snoc : forall A k (l : list (N * A)) k' a,
  last_value k (l ++ [(k', a)]) = if N.eqb k k' then Some a else last_value k l.
Proof.
  intros A k l k' a. induction l as [|[k1 b] l IH]; cbn [app last_value]; [now destruct (N.eqb k k')|].
  rewrite IH. now destruct (N.eqb k k').
Qed.
Lemma all_some_forall2 : forall A B (f : A -> option B) l r, all_some f l = Some r <-> Forall2 (fun a b => f a = Some b) l r.
Proof.
  intros A B f. induction l as [|a l IH]; intros r; cbn [all_some].
  - split; [intros H; injection H as <-; constructor|]. intros H. now inversion H.
  - split.
    + destruct (f a) as [b|] eqn:E; [|discriminate]. cbn [obind]. destruct (all_some f l) as [bs|]; [|discriminate]. cbn [obind].
      intros H. injection H as <-. constructor; [exact E|]. now apply IH.
    + intros H. inversion H as [|? b ? bs Hb Hl]; subst. rewrite Hb. cbn [obind]. apply IH in Hl. now rewrite Hl.
Qed.
(** A table: every member read; keys once each in the order of first appearance, each with its last value *)
Theorem read_table : forall A (f : jv -> option A) ms m, de_map f (VObj ms) = Some m <->
  exists kvs, Forall2 (fun kv p => u32_key (fst kv) = Some (fst p) /\ f (snd kv) = Some (snd p)) ms kvs /\
    im_keys m = rev (nodup N.eq_dec (rev (map fst kvs))) /\ forall k, im_get k m = last_value k kvs.
Proof.
  intros A f ms m.
  assert (G : forall kvs : list (N * A), let r := fold_left (fun m kv => im_insert (fst kv) (snd kv) m) kvs [] in
    im_keys r = rev (nodup N.eq_dec (rev (map fst kvs))) /\ forall k, im_get k r = last_value k kvs).
  { intros kvs. induction kvs as [|[k a] kvs IH] using rev_ind; [split; reflexivity|]. cbv zeta in *. rewrite fold_left_app. cbn [fold_left fst snd].
    destruct IH as [IK IG].
    set (r := fold_left (fun (m : imap N A) kv => im_insert (fst kv) (snd kv) m) kvs []) in *. split.
    - rewrite im_keys_insert, map_app, rev_app_distr. cbn [map fst rev app nodup].
      assert (D : im_has k r = true <-> In k (rev (map fst kvs))).
      { assert (Q : im_has k r = true <-> In k (im_keys r)).
        { unfold im_has. destruct (im_get k r) as [v|] eqn:E.
          - split; [intros _|reflexivity]. apply im_get_in in E. now apply (in_map fst) in E.
          - apply im_get_None in E. split; [discriminate|contradiction]. }
        rewrite Q, IK, <- in_rev, nodup_In. reflexivity. }
      destruct (in_dec N.eq_dec k (rev (map fst kvs))) as [I|I].
      + now rewrite (proj2 D I).
      + destruct (im_has k r) eqn:E; [exfalso; now apply I, D|]. cbn [rev]. now rewrite IK.
    - intros k'. rewrite im_get_insert, last_value_snoc. cbn. destruct (N.eqb k' k); [reflexivity|apply IG]. }
  assert (X : forall m1 m2 : imap N A, im_wf m1 -> im_keys m1 = im_keys m2 -> (forall k, im_get k m1 = im_get k m2) -> m1 = m2).
  { clear. induction m1 as [|[k a] m1 IH]; intros [|[k2 b] m2] W K Gt; try discriminate; [reflexivity|].
    cbn in K. injection K as -> K. inversion W as [|? ? N1 W1]; subst. cbn in N1.
    pose proof (Gt k2) as G0. cbn in G0. rewrite N.eqb_refl in G0. injection G0 as ->. f_equal. apply IH; auto.
    intros k. specialize (Gt k). cbn in Gt. destruct (N.eqb_spec k k2) as [Ek|]; [subst k; clear Gt|exact Gt].
    assert (Q : forall mm : imap N A, ~ In k2 (im_keys mm) -> im_get k2 mm = None).
    { clear. induction mm as [|[k c] mm IH]; intros H; [reflexivity|]. cbn. destruct (N.eqb_spec k2 k) as [->|]; [exfalso; apply H; now left|].
      apply IH. intros I. apply H. now right. }
    rewrite (Q m1), (Q m2); auto. unfold im_keys in *. now rewrite <- K. }
  cbn [de_map]. split.
  - destruct (all_some _ ms) as [kvs|] eqn:E; [|discriminate]. cbn [obind]. intros H. injection H as <-.
    exists kvs. split; [|apply G]. apply all_some_forall2 in E. clear G X. induction E as [|[u v] [k a] ms kvs H _ IH]; constructor; [|exact IH].
    cbn [fst snd] in *. destruct (u32_key u) as [k'|]; [|discriminate]. cbn [obind] in H. destruct (f v) as [a'|]; [|discriminate].
    cbn [obind] in H. now injection H as -> ->.
  - intros (kvs & F & K & Gt).
    assert (E : all_some (fun kv : list sunit * jv => let? k := u32_key (fst kv) in let? a := f (snd kv) in Some (k, a)) ms = Some kvs).
    { apply all_some_forall2. clear G X K Gt. induction F as [|[u v] [k a] ms kvs [H1 H2] _ IH]; constructor; [|exact IH].
      cbn [fst snd] in *. now rewrite H1, H2. }
    rewrite E. cbn [obind]. apply (f_equal Some). destruct (G kvs) as [G1 G2]. apply X.
    + unfold im_wf. rewrite G1. apply NoDup_rev, NoDup_nodup.
    + now rewrite G1, K.
    + intros k. now rewrite G2, Gt.
Qed.
Theorem read_other : forall A (f : jv -> option A) v, (forall ms, v <> VObj ms) -> de_map f v = None.
Proof. intros A f [| | | | |ms] H; try reflexivity. now destruct (H ms). Qed.
(** Escapes, white space, members in any order, an unknown member with an unpaired surrogate, absent
    [all] and [bT] *)
Example read_record_ex : from_str de_file_coverage
  " { ""path"" : ""a\u00e9\uD83d\ude00\/"", ""x"": [""\ud800"", -1.5e3], ""s"":{""0"":1,""1"":2,""0"":3}, ""f"":{}, ""b"":{""7"":[0,4]},
     ""statementMap"":{""0"":{""end"":{""line"":1,""column"":2},""start"":[3,4]}}, ""fnMap"":{}, ""branchMap"":{""7"":{""type"":""if"",""locations"":[]}} } "
  = Some (mkFC false "aé😀/" [(0%N, mkRange (mkLoc 3 4) (mkLoc 1 2))] []
      [(7%N, mkBranch None BIf [] None)] [(0%N, 3%N); (1%N, 2%N)] [] [(7%N, [0%N; 4%N])] None None).
Proof. vm_compute. reflexivity. Qed.
Example read_record_bad :
  from_str de_location "{""line"":1}" = None /\ from_str de_location "{""line"":1,""column"":2,""line"":1}" = None /\
  from_str de_location "{""line"":1.0,""column"":2}" = None /\ from_str de_location "{""line"":4294967296,""column"":2}" = None /\
  from_str de_location "{""line"":01,""column"":2}" = None /\ from_str de_location "{""line"":1,""column"":2,}" = None /\
  from_str de_location "[1,2,3]" = None /\ from_str de_location "[1,2] x" = None /\
  from_str de_location "[4294967295,2]" = Some (mkLoc 4294967295 2).
Proof. repeat split. Qed.

(** ** Values by type *)
(** UTF-8: [Utf8 n s] when the bytes [s] encode the code point [n] in the shortest form. *)
Inductive Utf8 : N -> string -> Prop :=
| U_one : forall a, (a < 128)%N -> Utf8 a (byte a)
| U_two : forall a b, (a < 32)%N -> (b < 64)%N -> (128 <= 64 * a + b)%N ->
    Utf8 (64 * a + b) (byte (192 + a) ++ byte (128 + b))
| U_three : forall a b c, (a < 16)%N -> (b < 64)%N -> (c < 64)%N -> (2048 <= 4096 * a + 64 * b + c)%N ->
    Utf8 (4096 * a + 64 * b + c) (byte (224 + a) ++ byte (128 + b) ++ byte (128 + c))
| U_four : forall a b c d, (a < 8)%N -> (b < 64)%N -> (c < 64)%N -> (d < 64)%N ->
    (65536 <= 262144 * a + 4096 * b + 64 * c + d)%N ->
    Utf8 (262144 * a + 4096 * b + 64 * c + d) (byte (240 + a) ++ byte (128 + b) ++ byte (128 + c) ++ byte (128 + d)).
(** The text of a string token: bytes, escaped characters, and pairs of surrogates *)
Inductive Str : list sunit -> string -> Prop :=
| S_nil : Str [] ""
| S_byte : forall c us s, Str us s -> Str (UByte c :: us) (String c s)
| S_char : forall n t us s, (n < 55296 \/ 57344 <= n)%N -> Utf8 n t -> Str us s -> Str (UHex n :: us) (t ++ s)
| S_pair : forall h l t us s, (h < 1024)%N -> (l < 1024)%N -> Utf8 (65536 + 1024 * h + l) t -> Str us s ->
    Str (UHex (55296 + h)%N :: UHex (56320 + l)%N :: us) (t ++ s).
Lemma utf8_spec : forall n s, (n < 2097152)%N -> (utf8 n = s <-> Utf8 n s).
Proof.
  assert (D : forall a q r, (r < q -> (q * a + r) / q = a /\ (q * a + r) mod q = r)%N).
  { intros a q r H. split; symmetry; [apply (N.div_unique _ _ _ r); lia|apply (N.mod_unique _ _ a); lia]. }
  intros n s B. unfold utf8. split.
  - intros <-.
    assert (E1 := N.div_mod n 64 ltac:(lia)). assert (L1 := N.mod_lt n 64 ltac:(lia)).
    assert (E2 := N.div_mod (n / 64) 64 ltac:(lia)). assert (L2 := N.mod_lt (n / 64) 64 ltac:(lia)).
    assert (E3 := N.div_mod (n / 64 / 64) 64 ltac:(lia)). assert (L3 := N.mod_lt (n / 64 / 64) 64 ltac:(lia)).
    rewrite !N.div_div in E3, L3 by lia. rewrite !N.div_div in E2 by lia. cbn [N.mul Pos.mul] in E2, E3, L3.
    destruct (N.ltb_spec n 128); [now constructor|].
    destruct (N.ltb_spec n 2048).
    { replace n with (64 * (n / 64) + n mod 64)%N at 1 by lia. constructor; lia. }
    destruct (N.ltb_spec n 65536).
    { replace n with (4096 * (n / 4096) + 64 * (n / 64 mod 64) + n mod 64)%N at 1 by lia. constructor; lia. }
    replace n with (262144 * (n / 262144) + 4096 * (n / 4096 mod 64) + 64 * (n / 64 mod 64) + n mod 64)%N at 1 by lia.
    constructor; lia.
  - intros H. destruct H as [a H|a b A1 B1 H|a b c A1 B1 C1 H|a b c d A1 B1 C1 D1 H].
    + destruct (N.ltb_spec a 128); [reflexivity|lia].
    + destruct (N.ltb_spec (64 * a + b) 128); [lia|]. destruct (N.ltb_spec (64 * a + b) 2048); [|lia].
      destruct (D a 64%N b B1) as [-> ->]. reflexivity.
    + destruct (N.ltb_spec (4096 * a + 64 * b + c) 128); [lia|]. destruct (N.ltb_spec (4096 * a + 64 * b + c) 2048); [lia|].
      destruct (N.ltb_spec (4096 * a + 64 * b + c) 65536); [|lia].
      replace (4096 * a + 64 * b + c)%N with (64 * (64 * a + b) + c)%N by lia.
      destruct (D (64 * a + b)%N 64%N c C1) as [-> ->]. destruct (D a 64%N b B1) as [_ ->].
      replace (64 * (64 * a + b) + c)%N with (4096 * a + (64 * b + c))%N by lia.
      destruct (D a 4096%N (64 * b + c)%N ltac:(lia)) as [-> _]. reflexivity.
    + destruct (N.ltb_spec (262144 * a + 4096 * b + 64 * c + d) 128); [lia|].
      destruct (N.ltb_spec (262144 * a + 4096 * b + 64 * c + d) 2048); [lia|].
      destruct (N.ltb_spec (262144 * a + 4096 * b + 64 * c + d) 65536); [lia|].
      replace (262144 * a + 4096 * b + 64 * c + d)%N with (64 * (64 * (64 * a + b) + c) + d)%N by lia.
      destruct (D (64 * (64 * a + b) + c)%N 64%N d D1) as [-> ->]. destruct (D (64 * a + b)%N 64%N c C1) as [_ ->].
      replace (64 * (64 * (64 * a + b) + c) + d)%N with (4096 * (64 * a + b) + (64 * c + d))%N by lia.
      destruct (D (64 * a + b)%N 4096%N (64 * c + d)%N ltac:(lia)) as [-> _]. destruct (D a 64%N b B1) as [_ ->].
      replace (4096 * (64 * a + b) + (64 * c + d))%N with (262144 * a + (4096 * b + 64 * c + d))%N by lia.
      destruct (D a 262144%N (4096 * b + 64 * c + d)%N ltac:(lia)) as [-> _]. reflexivity.
Qed.
Lemma hex_small : forall c n, Hex c n -> (n < 16)%N.
Proof.
  intros c n (k & -> & H). do 16 (destruct k as [|k]; [lia|]). destruct H as [H|H]; cbn in H; discriminate H.
Qed.
Lemma chars_small : forall us t n, Chars us t -> In (UHex n) us -> (n < 65536)%N.
Proof.
  intros us t n H. induction H as [|c us s A B C _ IH|x c us s I _ IH|a b c d na nb nc nd us s A1 A2 A3 A4 _ IH]; intros I'.
  - destruct I'.
  - destruct I' as [E|I']; [discriminate E|auto].
  - destruct I' as [E|I']; [discriminate E|auto].
  - apply hex_small in A1, A2, A3, A4. destruct I' as [E|I']; [|auto].
    assert (E' : n = (4096 * na + 256 * nb + 16 * nc + nd)%N) by congruence. lia.
Qed.
Lemma str_inv : forall us s, Str us s ->
  match us with
  | [] => s = ""
  | UByte c :: us' => exists s', s = String c s' /\ Str us' s'
  | UHex n :: us' =>
      (exists t s', s = t ++ s' /\ (n < 55296 \/ 57344 <= n)%N /\ Utf8 n t /\ Str us' s') \/
      (exists h l t us2 s', n = (55296 + h)%N /\ us' = UHex (56320 + l)%N :: us2 /\ s = t ++ s' /\ (h < 1024)%N /\ (l < 1024)%N /\
         Utf8 (65536 + 1024 * h + l)%N t /\ Str us2 s')
  end.
Proof.
  intros us s H. destruct H as [|c us s H|n t us s R U H|h l t us s Rh Rl U H].
  - reflexivity.
  - now exists s.
  - left. now exists t, s.
  - right. exists h, l, t, us, s. auto 10.
Qed.
Lemma units_spec : forall m us s, (length us <= m)%nat -> (forall n, In (UHex n) us -> (n < 65536)%N) -> (units us = Some s <-> Str us s).
Proof.
  induction m as [|m IH]; intros us s L H.
  - destruct us; [|cbn in L; lia]. cbn [units]. split; [intros E; injection E as <-; constructor|]. intros E. apply str_inv in E. now subst.
  - destruct us as [|[c|n] us].
    + cbn [units]. split; [intros E; injection E as <-; constructor|]. intros E. apply str_inv in E. now subst.
    + assert (H' : forall n, In (UHex n) us -> (n < 65536)%N) by (intros; apply H; now right).
      cbn [units]. split.
      * destruct (units us) as [s'|] eqn:E; [|discriminate]. intros X. injection X as <-.
        constructor. apply IH; auto. cbn in L; lia.
      * intros X. apply str_inv in X as (s' & -> & X). apply IH in X; [|cbn in L; lia|auto]. now rewrite X.
    + assert (H' : forall n, In (UHex n) us -> (n < 65536)%N) by (intros; apply H; now right).
      assert (Hn : (n < 65536)%N) by (apply H; now left).
      cbn [units]. unfold trail, lead. split.
      * destruct (N.leb_spec 56320 n) as [A|A]; cbn [andb].
        { destruct (N.ltb_spec n 57344) as [B|B]; [discriminate|]. destruct (N.leb_spec 55296 n); [|lia].
          destruct (N.ltb_spec n 56320); [lia|]. cbn [andb].
          destruct (units us) as [s'|] eqn:E; [|discriminate]. intros X. injection X as <-.
          apply S_char; [lia|apply utf8_spec; [lia|reflexivity]|]. apply IH; auto. cbn in L; lia. }
        destruct (N.leb_spec 55296 n) as [B|B]; cbn [andb].
        { destruct (N.ltb_spec n 56320); [|lia]. destruct us as [|[c|k] us]; try discriminate.
          destruct (N.leb_spec 56320 k) as [C|C]; cbn [andb]; [|discriminate].
          destruct (N.ltb_spec k 57344) as [D|D]; [|discriminate].
          destruct (units us) as [s'|] eqn:E; [|discriminate]. intros X. injection X as <-.
          replace n with (55296 + (n - 55296))%N at 1 by lia. replace k with (56320 + (k - 56320))%N at 1 by lia.
          apply S_pair; [lia|lia| |].
          - replace (65536 + 1024 * (n - 55296) + (k - 56320))%N with (65536 + (n - 55296) * 1024 + (k - 56320))%N by lia.
            apply utf8_spec; [lia|reflexivity].
          - apply IH; [cbn in L; lia| |exact E]. intros; apply H'. now right. }
        destruct (units us) as [s'|] eqn:E; [|discriminate]. intros X. injection X as <-.
        apply S_char; [lia|apply utf8_spec; [lia|reflexivity]|]. apply IH; auto. cbn in L; lia.
      * intros X. apply str_inv in X as [(t & s' & -> & R & U & Y)|(h & l & t & us2 & s' & -> & -> & -> & R1 & R2 & U & Y)].
        -- apply utf8_spec in U; [|lia]. apply IH in Y; [|cbn in L; lia|auto].
           destruct (N.leb_spec 56320 n); cbn [andb].
           ++ destruct (N.ltb_spec n 57344); [lia|]. destruct (N.leb_spec 55296 n); [|lia]. destruct (N.ltb_spec n 56320); [lia|].
              cbn [andb]. now rewrite Y, <- U.
           ++ destruct (N.leb_spec 55296 n); [lia|]. cbn [andb]. now rewrite Y, <- U.
        -- apply utf8_spec in U; [|lia]. apply IH in Y; [|cbn in L; lia|intros; apply H'; now right].
           destruct (N.leb_spec 56320 (55296 + h)); [lia|]. cbn [andb]. destruct (N.leb_spec 55296 (55296 + h)); [|lia].
           destruct (N.ltb_spec (55296 + h) 56320); [|lia]. cbn [andb].
           destruct (N.leb_spec 56320 (56320 + l)); [|lia]. destruct (N.ltb_spec (56320 + l) 57344); [|lia]. cbn [andb].
           rewrite Y. cbn [option_map]. rewrite <- U. do 3 f_equal. lia.
Qed.
(** The text of a string token of the grammar *)
Theorem string_value : forall us t s, Chars us t -> (units us = Some s <-> Str us s).
Proof. intros us t s H. apply (units_spec (length us)); [lia|]. intros n. now apply chars_small with t. Qed.
Theorem read_scalar : forall v,
  (forall b, de_bool v = Some b <-> v = VBool b) /\
  (forall n, de_u32 v = Some n <-> v = VNum (Some n) /\ (n < 2 ^ 32)%N) /\
  (forall s, de_string v = Some s <-> exists us, v = VStr us /\ units us = Some s).
Proof.
  intros v. split; [|split].
  - intros b. destruct v; cbn; split; intros H; try discriminate H; now injection H as <-.
  - intros n. change (2 ^ 32)%N with u32_mod. destruct v as [|b|[k|]|u|l|o]; cbn [de_u32 u32_of]; split; try discriminate;
      try (intros [H _]; discriminate H).
    + destruct (N.ltb_spec k u32_mod); [|discriminate]. intros E. now injection E as <-.
    + intros [H L]. injection H as ->. destruct (N.ltb_spec n u32_mod); [reflexivity|lia].
  - intros s. destruct v; cbn; split; try discriminate; try (intros (us & H & _); discriminate H).
    + intros H. eauto.
    + intros (us & H & K). now injection H as <-.
Qed.
Theorem read_vec : forall A (f : jv -> option A) v l,
  de_vec f v = Some l <-> exists vs, v = VArr vs /\ Forall2 (fun v a => f v = Some a) vs l.
Proof.
  intros A f v l. split.
  - destruct v as [|b|k|u|vs|o]; cbn; try discriminate. intros H. exists vs. split; [reflexivity|].
    revert l H. induction vs as [|v vs IH]; cbn; intros l H; [injection H as <-; constructor|].
    destruct (f v) as [a|] eqn:E; [|discriminate]. destruct (all_some f vs) as [l'|]; [|discriminate]. injection H as <-.
    constructor; auto.
  - intros (vs & -> & H). cbn. induction H as [|v a vs l E _ IH]; [reflexivity|]. cbn. now rewrite E, IH.
Qed.
Theorem read_option : forall A (f : jv -> option A) v o,
  de_option f v = Some o <-> (v = VNull /\ o = None) \/ (v <> VNull /\ exists a, o = Some a /\ f v = Some a).
Proof.
  intros A f v o. split.
  - destruct v; cbn [de_option]; [intros H; injection H as <-; now left|..];
      (match goal with |- option_map Some (f ?v) = _ -> _ => destruct (f v) as [a|] eqn:E end; [|discriminate];
       intros H; injection H as <-; right; split; [discriminate|eauto]).
  - intros [[-> ->]|[N (a & -> & H)]]; [reflexivity|]. destruct v; [congruence|..]; cbn [de_option]; now rewrite H.
Qed.
Theorem read_branch_type : forall v t, de_branch_type v = Some t <->
  exists us s, (v = VStr us \/ v = VObj [(us, VNull)]) /\ units us = Some s /\
  In (s, t) [("binary-expr", BinaryExpr); ("default-arg", DefaultArg); ("if", BIf); ("switch", BSwitch); ("cond-expr", CondExpr)].
Proof.
  intros v t.
  assert (N : forall s, (if s =? "binary-expr" then Some BinaryExpr else if s =? "default-arg" then Some DefaultArg
     else if s =? "if" then Some BIf else if s =? "switch" then Some BSwitch
     else if s =? "cond-expr" then Some CondExpr else None) = Some t <->
     In (s, t) [("binary-expr", BinaryExpr); ("default-arg", DefaultArg); ("if", BIf); ("switch", BSwitch); ("cond-expr", CondExpr)]).
  { intros s. split.
    - repeat (match goal with |- context [String.eqb s ?k] => destruct (String.eqb_spec s k) as [->|] end;
              [intros H; injection H as <-; cbn; auto 6|]). discriminate.
    - intros [E|[E|[E|[E|[E|[]]]]]]; injection E as <- <-; reflexivity. }
  unfold de_branch_type. split.
  - assert (Q : forall us, (v = VStr us \/ v = VObj [(us, VNull)]) -> (let? s := units us in
       (if s =? "binary-expr" then Some BinaryExpr else if s =? "default-arg" then Some DefaultArg
     else if s =? "if" then Some BIf else if s =? "switch" then Some BSwitch
     else if s =? "cond-expr" then Some CondExpr else None)) = Some t -> exists us s, (v = VStr us \/ v = VObj [(us, VNull)]) /\ units us = Some s /\
  In (s, t) [("binary-expr", BinaryExpr); ("default-arg", DefaultArg); ("if", BIf); ("switch", BSwitch); ("cond-expr", CondExpr)]).
    { intros us E H. destruct (units us) as [s|] eqn:U; [|discriminate]. cbn [obind] in H. apply N in H. eauto. }
    destruct v as [| | |us|l|[|[us []] [|]]]; cbn [obind]; try discriminate; apply Q; auto.
  - intros (us & s & [->| ->] & U & I); rewrite U; cbn [obind]; now apply N.
Qed.
