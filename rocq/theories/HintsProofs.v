(** Ignore hints: the patterns against the documented grammar, lookup precedence,
    location lookup (C25-C28). *)
From Coq Require Import NArith String Ascii List Bool Lia PeanoNat.
Import ListNotations.
From Verif Require Import Base Oxide Hints.
Open Scope N_scope.

(** ** Specification vocabulary *)

(** A hint comment of kind [kind]: spaces, istanbul, spaces, ignore, spaces, the kind,
    then the end or a character that is not a word character. *)
Definition hint_text (word_hi : N -> bool) (kind c : text) : Prop :=
  exists w1 w2 w3 rest,
    c = (w1 ++ chars "istanbul" ++ w2 ++ chars "ignore" ++ w3 ++ kind ++ rest)%list /\
    forallb is_space w1 = true /\
    forallb is_space w2 = true /\ w2 <> [] /\
    forallb is_space w3 = true /\ w3 <> [] /\
    match rest with [] => True | x :: _ => is_word word_hi x = false end.

Definition section_kind (k : text) : Prop :=
  k = chars "if" \/ k = chars "else" \/ k = chars "next".

(** ** The matcher against a relation *)

Definition consumes (r : re) (L : nat -> text -> text -> Prop) : Prop :=
  forall i s g i' s' g', In (i', s', g') (rmatch r (i, s, g)) ->
    exists u, s = (u ++ s')%list /\ i' = (i + length u)%nat /\ L i u s'.

Lemma star_from_in : forall p s i g i' s' g',
  In (i', s', g') (star_from p i s g) <->
  exists u, s = (u ++ s')%list /\ i' = (i + length u)%nat /\ g' = g /\ forallb p u = true.
Proof.
  induction s as [|c s IH]; intros i g i' s' g'; simpl.
  - split.
    + intros [H|[]]. inversion H; subst. exists []. repeat split; simpl; auto; lia.
    + intros (u & Hu & Hi & Hg & Hp). destruct u; [|discriminate]. simpl in *.
      subst. left. f_equal. f_equal. lia.
  - destruct (p c) eqn:Hc.
    + rewrite in_app_iff, IH. simpl. split.
      * intros [(u & Hu & Hi & Hg & Hp)|[H|[]]].
        -- exists (c :: u). subst. simpl. rewrite Hc. repeat split; auto; lia.
        -- inversion H; subst. exists []. repeat split; simpl; auto; lia.
      * intros (u & Hu & Hi & Hg & Hp). destruct u as [|x u]; simpl in *.
        -- right. left. subst. f_equal. f_equal. lia.
        -- inversion Hu; subst. apply andb_true_iff in Hp as [_ Hp]. left. exists u.
           repeat split; auto; lia.
    + simpl. split.
      * intros [H|[]]. inversion H; subst. exists []. repeat split; simpl; auto; lia.
      * intros (u & Hu & Hi & Hg & Hp). destruct u as [|x u]; simpl in *.
        -- left. subst. f_equal. f_equal. lia.
        -- inversion Hu; subst. rewrite Hc in Hp. discriminate.
Qed.

Lemma class_in : forall p i s g i' s' g',
  In (i', s', g') (rmatch (RClass p) (i, s, g)) <->
  exists c, s = c :: s' /\ p c = true /\ i' = S i /\ g' = g.
Proof.
  intros p i [|c s] g i' s' g'; simpl.
  - split; [tauto|]. intros (c & H & _). discriminate.
  - destruct (p c) eqn:Hc; simpl; split.
    + intros [H|[]]. inversion H; subst. exists c; auto.
    + intros (c0 & H & Hp & Hi & Hg). inversion H; subst. auto.
    + tauto.
    + intros (c0 & H & Hp & Hi & Hg). inversion H; subst. congruence.
Qed.

Lemma seq_in : forall a b st st',
  In st' (rmatch (RSeq a b) st) <-> exists st1, In st1 (rmatch a st) /\ In st' (rmatch b st1).
Proof. intros a b [[i s] g] st'. simpl. apply in_flat_map. Qed.

Lemma plus_in : forall p i s g i' s' g',
  In (i', s', g') (rmatch (RPlus p) (i, s, g)) <->
  exists u, s = (u ++ s')%list /\ u <> [] /\ forallb p u = true /\
            i' = (i + length u)%nat /\ g' = g.
Proof.
  intros. unfold RPlus. rewrite seq_in. split.
  - intros ([[i1 s1] g1] & H1 & H2). apply class_in in H1 as (c & Hs & Hp & Hi & Hg).
    simpl in H2. apply star_from_in in H2 as (u & Hs1 & Hi' & Hg' & Hu). subst.
    exists (c :: u). simpl. rewrite Hp. repeat split; auto; try discriminate; lia.
  - intros (u & Hs & Hne & Hu & Hi & Hg). destruct u as [|c u]; [congruence|].
    simpl in Hu. apply andb_true_iff in Hu as [Hc Hu]. subst.
    exists (S i, u ++ s', g)%list. split.
    + apply class_in. exists c. auto.
    + simpl. apply star_from_in. exists u. simpl. repeat split; auto; lia.
Qed.

Lemma lit_in : forall t last i s g st',
  In st' (rmatch (RLit t last) (i, s, g)) <->
  exists s1, s = (t ++ s1)%list /\ In st' (rmatch last ((i + length t)%nat, s1, g)).
Proof.
  induction t as [|c t IH]; intros last i s g st'.
  - simpl. rewrite Nat.add_0_r. split; [intros; exists s; auto|].
    intros (s1 & -> & H). exact H.
  - change (RLit (c :: t) last) with (RSeq (RClass (N.eqb c)) (RLit t last)).
    rewrite seq_in. split.
    + intros ([[i1 s1] g1] & H1 & H2). apply class_in in H1 as (x & Hs & Hp & Hi & Hg).
      apply N.eqb_eq in Hp. subst. apply IH in H2 as (s2 & -> & H2).
      exists s2. split; [reflexivity|]. simpl. now rewrite Nat.add_succ_r.
    + intros (s1 & -> & H). exists (S i, t ++ s1, g)%list. split.
      * apply class_in. exists c. rewrite N.eqb_refl. auto.
      * apply IH. exists s1. split; [reflexivity|]. simpl in *. now rewrite Nat.add_succ_r in H.
Qed.

Lemma word_in : forall t, t <> [] -> forall i s g i' s' g',
  In (i', s', g') (rmatch (RWord t) (i, s, g)) <->
  s = (t ++ s')%list /\ i' = (i + length t)%nat /\ g' = g.
Proof.
  intros t Ht i s g i' s' g'. unfold RWord.
  destruct (rev t) as [|c r] eqn:Hr.
  - apply (f_equal (@rev N)) in Hr. rewrite rev_involutive in Hr. simpl in Hr. congruence.
  - assert (Ht' : t = (rev r ++ [c])%list).
    { rewrite <- (rev_involutive t), Hr. reflexivity. }
    rewrite lit_in. split.
    + intros (s1 & Hs & H). apply class_in in H as (x & Hs1 & Hp & Hi & Hg).
      apply N.eqb_eq in Hp. subst. rewrite app_length, <- app_assoc. simpl. repeat split; lia.
    + intros (Hs & Hi & Hg). exists (c :: s'). subst. rewrite <- app_assoc. split; [reflexivity|].
      apply class_in. exists c. rewrite N.eqb_refl, app_length. simpl. repeat split; lia.
Qed.

Lemma group_in : forall a i s g i' s' g',
  In (i', s', g') (rmatch (RGroup a) (i, s, g)) <->
  g' = Some (firstn (i' - i) s) /\ exists g1, In (i', s', g1) (rmatch a (i, s, g)).
Proof.
  intros. simpl. rewrite in_map_iff. split.
  - intros ([[i1 s1] g1] & H & Hin). inversion H; subst. split; [reflexivity|]. eauto.
  - intros (Hg & g1 & Hin). subst. exists (i', s', g1). auto.
Qed.

Lemma alt_in : forall a b st st',
  In st' (rmatch (RAlt a b) st) <-> In st' (rmatch a st) \/ In st' (rmatch b st).
Proof. intros a b [[i s] g] st'. simpl. apply in_app_iff. Qed.

(** The kinds group consumes one of the words of [ks]. *)
Definition group_words (kinds : re) (ks : list text) : Prop :=
  forall i s g i' s' g', In (i', s', g') (rmatch kinds (i, s, g)) <->
  exists k, In k ks /\ s = (k ++ s')%list /\ i' = (i + length k)%nat /\ g' = g.

Lemma hint_re_in : forall word_hi kinds ks s i' s' g',
  group_words kinds ks ->
  In (i', s', g') (rmatch (hint_re word_hi kinds) (0%nat, s, None)) <->
  exists w1 w2 w3 k rest,
    s = (w1 ++ chars "istanbul" ++ w2 ++ chars "ignore" ++ w3 ++ k ++ rest)%list /\
    forallb is_space w1 = true /\
    (w2 <> [] /\ forallb is_space w2 = true) /\ (w3 <> [] /\ forallb is_space w3 = true) /\
    In k ks /\ g' = Some k /\
    match rest with [] => s' = [] | x :: rest' => is_word word_hi x = false /\ s' = rest' end /\
    i' = (length s - length s')%nat.
Proof.
  intros wh kinds ks s i' s' g' Hk. unfold hint_re. rewrite seq_in. split.
  - intros (st0 & H0 & H). simpl in H0. destruct H0 as [<-|[]].
    rewrite seq_in in H. destruct H as ([[i1 s1] g1] & H1 & H).
    simpl in H1. apply star_from_in in H1 as (w1 & E1 & I1 & G1 & W1).
    rewrite seq_in in H. destruct H as ([[i2 s2] g2] & H2 & H).
    apply word_in in H2 as (E2 & I2 & G2); [|discriminate].
    rewrite seq_in in H. destruct H as ([[i3 s3] g3] & H3 & H).
    apply plus_in in H3 as (w2 & E3 & N2 & W2 & I3 & G3).
    rewrite seq_in in H. destruct H as ([[i4 s4] g4] & H4 & H).
    apply word_in in H4 as (E4 & I4 & G4); [|discriminate].
    rewrite seq_in in H. destruct H as ([[i5 s5] g5] & H5 & H).
    apply plus_in in H5 as (w3 & E5 & N3 & W3 & I5 & G5).
    rewrite seq_in in H. destruct H as ([[i6 s6] g6] & H6 & H).
    apply group_in in H6 as (G6 & gg & H6). apply Hk in H6 as (k & Hin & E6 & I6 & _).
    exists w1, w2, w3, k, s6.
    assert (Hs : s = (w1 ++ chars "istanbul" ++ w2 ++ chars "ignore" ++ w3 ++ k ++ s6)%list)
      by (rewrite E1, E2, E3, E4, E5, E6; reflexivity).
    assert (Hg : g6 = Some k).
    { rewrite G6, E6. f_equal. replace (i6 - i5)%nat with (length k) by lia.
      rewrite firstn_app, Nat.sub_diag, firstn_all. simpl. now rewrite app_nil_r. }
    assert (Hi : i6 = (length s - length s6)%nat).
    { rewrite Hs. rewrite !app_length. rewrite I6, I5, I4, I3, I2, I1. lia. }
    assert (Hlen : (length s6 <= length s)%nat) by (rewrite Hs, !app_length; lia).
    repeat split; auto.
    + apply alt_in in H as [H|H].
      * apply class_in in H as (x & Ex & _ & _ & Gx). congruence.
      * simpl in H. destruct s6; [|destruct H]. destruct H as [H|[]]. inversion H; congruence.
    + apply alt_in in H as [H|H].
      * apply class_in in H as (x & Ex & Px & Ix & Gx). subst s6.
        apply negb_true_iff in Px. auto.
      * simpl in H. destruct s6; [|destruct H]. destruct H as [H|[]]. inversion H; subst. auto.
    + apply alt_in in H as [H|H].
      * apply class_in in H as (x & Ex & Px & Ix & Gx). subst s6. simpl in *. lia.
      * simpl in H. destruct s6; [|destruct H]. destruct H as [H|[]]. inversion H; subst. assumption.
  - intros (w1 & w2 & w3 & k & rest & Hs & W1 & (N2 & W2) & (N3 & W3) & Hin & Hg & Hr & Hi).
    exists (0%nat, s, None). split; [simpl; auto|]. rewrite seq_in.
    exists (length w1, chars "istanbul" ++ w2 ++ chars "ignore" ++ w3 ++ k ++ rest, None)%list.
    split; [simpl; apply star_from_in; exists w1; auto|]. rewrite seq_in.
    eexists (_, w2 ++ chars "ignore" ++ w3 ++ k ++ rest, None)%list.
    split; [apply word_in; [discriminate|]; auto|]. rewrite seq_in.
    eexists (_, chars "ignore" ++ w3 ++ k ++ rest, None)%list.
    split; [apply plus_in; exists w2; repeat split; auto|]. rewrite seq_in.
    eexists (_, w3 ++ k ++ rest, None)%list.
    split; [apply word_in; [discriminate|]; auto|]. rewrite seq_in.
    eexists (_, k ++ rest, None)%list.
    split; [apply plus_in; exists w3; repeat split; auto|]. rewrite seq_in.
    eexists (_, rest, Some k).
    split.
    + apply group_in. split.
      2:{ exists None. apply Hk. exists k. repeat split; auto. }
      f_equal. match goal with |- _ = firstn (?a + length k - ?a) _ =>
        replace (a + length k - a)%nat with (length k) by lia end.
      rewrite firstn_app, Nat.sub_diag, firstn_all. simpl. now rewrite app_nil_r.
    + subst g'. apply alt_in. destruct rest as [|x rest].
      * right. simpl. left. subst s'. f_equal. f_equal. subst i' s. rewrite !app_length. simpl. lia.
      * left. destruct Hr as [Hx Hr]. subst s'. apply class_in. exists x. rewrite Hx.
        repeat split; auto. subst i' s. rewrite !app_length. simpl. lia.
Qed.

Lemma words_file : group_words (RWord (chars "file")) [chars "file"].
Proof.
  intros i s g i' s' g'. rewrite word_in by discriminate. split.
  - intros (E & I & G). exists (chars "file"). simpl; auto.
  - intros (k & [<-|[]] & H). exact H.
Qed.

Lemma words_section :
  group_words (RAlt (RWord (chars "if")) (RAlt (RWord (chars "else")) (RWord (chars "next"))))
    [chars "if"; chars "else"; chars "next"].
Proof.
  intros i s g i' s' g'. rewrite !alt_in, !word_in by discriminate. split.
  - intros [H|[H|H]]; [exists (chars "if")|exists (chars "else")|exists (chars "next")];
      (split; [simpl; auto|exact H]).
  - intros (k & [<-|[<-|[<-|[]]]] & H); auto.
Qed.

Lemma hint_re_start : forall wh kinds s i, rmatch (hint_re wh kinds) (S i, s, None) = [].
Proof. reflexivity. Qed.

Lemma rsearch_hint : forall wh kinds s,
  rsearch (hint_re wh kinds) 0 s = hd_error (rmatch (hint_re wh kinds) (0%nat, s, None)).
Proof.
  intros wh kinds s.
  assert (H : forall s i, rsearch (hint_re wh kinds) (S i) s = None).
  { clear. induction s as [|c s IH]; intros i; cbn [rsearch]; rewrite hint_re_start; auto. }
  destruct s as [|c s]; cbn [rsearch];
    destruct (rmatch (hint_re wh kinds) _) as [|st l]; simpl; auto.
Qed.

(** Splitting off leading spaces is unambiguous. *)
Lemma spaces_split : forall w w' a b x y,
  forallb is_space w = true -> forallb is_space w' = true ->
  is_space a = false -> is_space b = false ->
  (w ++ a :: x = w' ++ b :: y)%list -> w = w' /\ a :: x = b :: y.
Proof.
  induction w as [|c w IH]; intros [|c' w'] a b x y H H' Ha Hb E; simpl in *.
  - auto.
  - inversion E; subst. rewrite Ha in H'. discriminate.
  - inversion E; subst. rewrite Hb in H. discriminate.
  - inversion E; subst. apply andb_true_iff in H as [_ H]. apply andb_true_iff in H' as [_ H'].
    destruct (IH w' a b x y H H' Ha Hb H2) as [-> E']. auto.
Qed.

Lemma hint_kind_unique : forall wh k k' c,
  section_kind k -> section_kind k' -> hint_text wh k c -> hint_text wh k' c -> k = k'.
Proof.
  intros wh k k' c Hk Hk' (w1 & w2 & w3 & rest & E & W1 & W2 & N2 & W3 & N3 & R)
    (w1' & w2' & w3' & rest' & E' & W1' & W2' & N2' & W3' & N3' & R').
  rewrite E in E'. clear E c.
  change (chars "istanbul" ++ w2 ++ chars "ignore" ++ w3 ++ k ++ rest)%list with
    (105 :: (chars "stanbul" ++ w2 ++ chars "ignore" ++ w3 ++ k ++ rest))%list in E'.
  change (chars "istanbul" ++ w2' ++ chars "ignore" ++ w3' ++ k' ++ rest')%list with
    (105 :: (chars "stanbul" ++ w2' ++ chars "ignore" ++ w3' ++ k' ++ rest'))%list in E'.
  apply spaces_split in E' as [_ E']; auto. inversion E' as [E1]; clear E'.
  change (chars "ignore" ++ w3 ++ k ++ rest)%list with
    (105 :: (chars "gnore" ++ w3 ++ k ++ rest))%list in E1.
  change (chars "ignore" ++ w3' ++ k' ++ rest')%list with
    (105 :: (chars "gnore" ++ w3' ++ k' ++ rest'))%list in E1.
  apply spaces_split in E1 as [_ E1]; auto. inversion E1 as [E2]; clear E1.
  destruct Hk as [->|[->| ->]], Hk' as [->|[->| ->]]; try reflexivity; exfalso;
    cbn [chars N_of_ascii app] in E2; apply spaces_split in E2 as [_ E2]; auto; discriminate.
Qed.

(** The character classes: ASCII word characters are the letters, the digits and [_]; white
    space is the Unicode property White_Space. *)
Theorem word_class : forall word_hi c, c < 128 ->
  (is_word word_hi c = true <->
   exists a, c = N_of_ascii a /\ In a (list_ascii_of_string "0123456789ABCDEFGHIJKLMNOPQRSTUVWXYZ_abcdefghijklmnopqrstuvwxyz")).
Proof.
  intros wh c H.
  assert (D : forall n, (n < 128)%nat -> is_word wh (N.of_nat n) =
    existsb (fun a => N.eqb (N.of_nat n) (N_of_ascii a))
      (list_ascii_of_string "0123456789ABCDEFGHIJKLMNOPQRSTUVWXYZ_abcdefghijklmnopqrstuvwxyz")).
  { intros n Hn. do 128 (destruct n as [|n]; [reflexivity|]). lia. }
  specialize (D (N.to_nat c)). rewrite N2Nat.id in D. rewrite D by lia. rewrite existsb_exists.
  split; intros (a & H1 & H2); exists a; [apply N.eqb_eq in H2|subst; rewrite N.eqb_refl]; auto.
Qed.
Theorem word_class_hi : forall word_hi c, 128 <= c -> is_word word_hi c = word_hi c.
Proof. intros wh c H. unfold is_word. destruct (N.ltb_spec c 128); [lia|reflexivity]. Qed.
(** PropList.txt, White_Space *)
Theorem space_class : forall c, is_space c = true <->
  In c [9; 10; 11; 12; 13; 32; 133; 160; 5760; 8192; 8193; 8194; 8195; 8196; 8197; 8198; 8199; 8200; 8201; 8202;
        8232; 8233; 8239; 8287; 12288].
Proof.
  intros c. unfold is_space, between. rewrite !orb_true_iff, !andb_true_iff, !N.leb_le, !N.eqb_eq. split; intros H.
  - cbn [In]. lia.
  - cbn [In] in H. lia.
Qed.

(** C25: the pattern recognises exactly the documented grammar, and yields the kind. *)
Theorem hint_grammar : forall word_hi c k,
  hint_of_comment word_hi c = Some k <-> section_kind k /\ hint_text word_hi k c.
Proof.
  intros wh c k. unfold hint_of_comment, COMMENT_RE. rewrite rsearch_hint.
  set (L := rmatch _ _).
  assert (HL : forall i' s' g', In (i', s', g') L -> exists k, g' = Some k /\ trim k = k /\
             section_kind k /\ hint_text wh k c).
  { intros i' s' g' Hin. unfold L in Hin. apply (hint_re_in _ _ _ _ _ _ _ words_section) in Hin.
    destruct Hin as (w1 & w2 & w3 & k0 & rest & Hs & W1 & (N2 & W2) & (N3 & W3) & Hk & Hg & Hr & _).
    exists k0. assert (Hsk : section_kind k0)
      by (destruct Hk as [<-|[<-|[<-|[]]]]; unfold section_kind; auto).
    split; [assumption|]. split; [|split; [assumption|]].
    - destruct Hk as [<-|[<-|[<-|[]]]]; reflexivity.
    - exists w1, w2, w3, rest. repeat split; auto. destruct rest; [auto|tauto]. }
  split.
  - destruct L as [|[[i s] g] L']; [discriminate|]. cbn [hd_error].
    destruct (HL i s g (or_introl eq_refl)) as (k0 & Hg & Ht & Hk & Hh). rewrite Hg. cbn [option_map].
    rewrite Ht. intros H; inversion H; subst. auto.
  - intros [Hk Hh].
    assert (Hne : exists st, In st L).
    { destruct Hh as (w1 & w2 & w3 & rest & Hs & W1 & W2 & N2 & W3 & N3 & R).
      exists ((length c - length (tl rest))%nat, tl rest, Some k). unfold L.
      apply (hint_re_in _ _ _ _ _ _ _ words_section).
      exists w1, w2, w3, k, rest. repeat split; auto.
      - destruct Hk as [->|[->| ->]]; simpl; auto.
      - destruct rest; auto. }
    destruct L as [|[[i s] g] L']; [destruct Hne as [st []]|]. cbn [hd_error].
    destruct (HL i s g (or_introl eq_refl)) as (k0 & Hg & Ht & Hk0 & Hh0). rewrite Hg. cbn [option_map].
    rewrite Ht. f_equal. exact (hint_kind_unique wh k0 k c Hk0 Hk Hh0 Hh).
Qed.

Theorem no_hint_iff : forall word_hi c,
  hint_of_comment word_hi c = None <-> forall k, section_kind k -> ~ hint_text word_hi k c.
Proof.
  intros wh c. split.
  - intros H k Hk Hh. assert (hint_of_comment wh c = Some k) by (apply hint_grammar; auto). congruence.
  - intros H. destruct (hint_of_comment wh c) as [k|] eqn:E; [|reflexivity].
    apply hint_grammar in E as [Hk Hh]. destruct (H k Hk Hh).
Qed.

(** File-level hints: the same grammar with the word file. *)
Theorem file_hint_grammar : forall word_hi c,
  validate_comments word_hi (Some [c]) = true <-> hint_text word_hi (chars "file") c.
Proof.
  intros wh c. unfold validate_comments, COMMENT_FILE_REGEX. cbn [existsb].
  rewrite orb_false_r, rsearch_hint. set (L := rmatch _ _).
  assert (HL : (exists st, In st L) <-> hint_text wh (chars "file") c).
  { split.
    - intros [[[i s] g] Hin]. apply (hint_re_in _ _ _ _ _ _ _ words_file) in Hin.
      destruct Hin as (w1 & w2 & w3 & k0 & rest & Hs & W1 & (N2 & W2) & (N3 & W3) & [<-|[]] & Hg & Hr & _).
      exists w1, w2, w3, rest. repeat split; auto. destruct rest; [auto|tauto].
    - intros (w1 & w2 & w3 & rest & Hs & W1 & W2 & N2 & W3 & N3 & R).
      exists ((length c - length (tl rest))%nat, tl rest, Some (chars "file")). unfold L.
      apply (hint_re_in _ _ _ _ _ _ _ words_file).
      exists w1, w2, w3, (chars "file"), rest. repeat split; auto.
      + simpl; auto.
      + destruct rest; auto. }
  rewrite <- HL. destruct L as [|st L']; cbn [hd_error]; split; try discriminate; auto.
  - intros [st' []].
  - intros _. exists st. now left.
Qed.

Lemma validate_spec : forall wh cs,
  validate_comments wh cs = true <->
  exists l c, cs = Some l /\ In c l /\ hint_text wh (chars "file") c.
Proof.
  intros wh cs. destruct cs as [l|]; simpl.
  - rewrite existsb_exists. split.
    + intros (c & Hin & H). exists l, c. repeat split; auto. apply file_hint_grammar.
      unfold validate_comments. simpl. now rewrite H.
    + intros (l' & c & E & Hin & H). inversion E; subst. exists c. split; [assumption|].
      apply file_hint_grammar in H. unfold validate_comments in H. simpl in H.
      now rewrite orb_false_r in H.
  - split; [discriminate|]. intros (l & c & H & _). discriminate.
Qed.

(** C27 (comment part): which files are ignored. *)
Theorem ignore_file_iff : forall word_hi cs pos,
  should_ignore_file word_hi cs pos = true <->
  exists l c, (leading cs (lo pos) = Some l \/ leading cs (hi pos) = Some l \/
               trailing cs (lo pos) = Some l \/ trailing cs (hi pos) = Some l) /\
              In c l /\ hint_text word_hi (chars "file") c.
Proof.
  intros wh cs pos. unfold should_ignore_file. cbn [existsb]. rewrite !orb_true_iff, !validate_spec.
  split.
  - intros [H|[H|[H|[H|H]]]]; try discriminate;
      destruct H as (l & c & E & Hin & Hh); exists l, c; auto.
  - intros (l & c & [E|[E|[E|E]]] & Hin & Hh); eauto 10.
Qed.

(** ** Lookup *)

(** The recognised hints among a list of comments, in order. *)
Definition hints_in (word_hi : N -> bool) (cs : list text) : list text :=
  flat_map (fun c => match hint_of_comment word_hi c with Some k => [k] | None => [] end) cs.
Definition comments_at (o : option (list text)) : list text :=
  match o with Some l => l | None => [] end.

Lemma find_map_hints : forall wh l, find_map (hint_of_comment wh) l = hd_error (hints_in wh l).
Proof.
  induction l as [|c l IH]; [reflexivity|]. unfold hints_in in *. simpl.
  destruct (hint_of_comment wh c); [reflexivity|]. exact IH.
Qed.

(** C26: the first hint among the comments leading the end position, then those leading
    the start position. *)
Theorem lookup_first_hint : forall word_hi cs sp,
  lookup_hint_comments word_hi cs (Some sp) =
  hd_error (hints_in word_hi (comments_at (leading cs (hi sp)) ++ comments_at (leading cs (lo sp)))).
Proof.
  intros wh cs sp. unfold lookup_hint_comments, hints_in. rewrite flat_map_app.
  change (flat_map _ ?l) with (hints_in wh l).
  destruct (leading cs (hi sp)) as [h|], (leading cs (lo sp)) as [l|]; cbn [comments_at];
    rewrite ?find_map_hints; change (hints_in wh []) with (@nil text);
    repeat match goal with |- context [hints_in wh ?l] => destruct (hints_in wh l) end; reflexivity.
Qed.

Definition scope_word (s : ignore_scope) : text :=
  match s with INext => chars "next" | IIf => chars "if" | IElse => chars "else" end.

Theorem should_ignore_spec : forall word_hi cs sp s,
  should_ignore word_hi cs sp = Some s <->
  lookup_hint_comments word_hi cs sp = Some (scope_word s).
Proof.
  intros wh cs sp s. unfold should_ignore.
  destruct (lookup_hint_comments wh cs sp) as [t|]; [|split; discriminate].
  unfold text_eqb.
  destruct (list_eq_dec N.eq_dec t (chars "next")) as [->|Hn];
    [split; [intros H; inversion H; reflexivity|destruct s; try discriminate; reflexivity]|].
  destruct (list_eq_dec N.eq_dec t (chars "if")) as [->|Hi];
    [split; [intros H; inversion H; reflexivity|destruct s; try discriminate; reflexivity]|].
  destruct (list_eq_dec N.eq_dec t (chars "else")) as [->|He];
    [split; [intros H; inversion H; reflexivity|destruct s; try discriminate; reflexivity]|].
  split; [discriminate|]. destruct s; intros H; injection H as ->; exfalso; auto.
Qed.

(** Every recognised hint has an effect: no recognised word is dropped on the way. *)
Theorem should_ignore_none_iff : forall word_hi cs sp,
  should_ignore word_hi cs (Some sp) = None <->
  forall c, In c (comments_at (leading cs (hi sp)) ++ comments_at (leading cs (lo sp))) ->
            forall k, section_kind k -> ~ hint_text word_hi k c.
Proof.
  intros wh cs sp. set (L := (comments_at (leading cs (hi sp)) ++ comments_at (leading cs (lo sp)))%list).
  assert (H1 : should_ignore wh cs (Some sp) = None <-> hints_in wh L = []).
  { pose proof (lookup_first_hint wh cs sp) as HL. fold L in HL.
    destruct (should_ignore wh cs (Some sp)) as [s|] eqn:E.
    - apply should_ignore_spec in E. rewrite E in HL. destruct (hints_in wh L); [discriminate|].
      split; discriminate.
    - split; [intros _|auto]. destruct (hints_in wh L) as [|k ks] eqn:Hh; [reflexivity|].
      exfalso. cbn [hd_error] in HL.
      assert (In k (hints_in wh L)) as Hin by (rewrite Hh; now left).
      unfold hints_in in Hin. apply in_flat_map in Hin as (c & _ & Hc).
      destruct (hint_of_comment wh c) as [k'|] eqn:Ec; [|destruct Hc].
      destruct Hc as [<-|[]]. apply hint_grammar in Ec as [Hk _].
      assert (exists s, lookup_hint_comments wh cs (Some sp) = Some (scope_word s)) as [s Hs].
      { rewrite HL. destruct Hk as [->|[->| ->]];
          [exists IIf|exists IElse|exists INext]; reflexivity. }
      apply should_ignore_spec in Hs. congruence. }
  rewrite H1. unfold hints_in. split.
  - intros H c Hc. apply no_hint_iff. destruct (hint_of_comment wh c) as [k|] eqn:E; [|reflexivity].
    assert (In k []) as []; rewrite <- H. apply in_flat_map. exists c. rewrite E. simpl; auto.
  - intros H. destruct (flat_map _ L) as [|k ks] eqn:E; [reflexivity|].
    assert (In k (k :: ks)) as Hin by now left. rewrite <- E in Hin.
    apply in_flat_map in Hin as (c & Hc & Hk). specialize (H c Hc). apply no_hint_iff in H.
    rewrite H in Hk. destruct Hk.
Qed.

(** ** Locations *)

(** C28 *)
Theorem range_lookup : forall lookup sp,
  lo sp <> 0 -> hi sp <> 0 ->
  fst (lookup (lo sp)) < u32_mod -> snd (lookup (lo sp)) < u32_mod ->
  fst (lookup (hi sp)) < u32_mod -> snd (lookup (hi sp)) < u32_mod ->
  get_range_from_span lookup sp =
  mkRange (mkLoc (fst (lookup (lo sp))) (snd (lookup (lo sp))))
          (mkLoc (fst (lookup (hi sp))) (snd (lookup (hi sp)))).
Proof.
  intros lookup sp Hl Hh B1 B2 B3 B4. unfold get_range_from_span.
  destruct (N.eqb_spec (hi sp) 0); [congruence|]. destruct (N.eqb_spec (lo sp) 0); [congruence|].
  cbn [orb]. unfold range_new, as_u32. now rewrite !N.mod_small by assumption.
Qed.

Theorem range_dummy : forall lookup sp, lo sp = 0 \/ hi sp = 0 ->
  get_range_from_span lookup sp = range_new 0 0 0 0.
Proof.
  intros lookup sp H. unfold get_range_from_span.
  destruct (N.eqb_spec (hi sp) 0), (N.eqb_spec (lo sp) 0); try reflexivity.
  destruct H; congruence.
Qed.

(** Lines are 1-based, so a located node never gets the zero range. *)
Theorem range_zero_iff : forall lookup sp,
  (forall p, p <> 0 -> 1 <= fst (lookup p) < u32_mod) ->
  (get_range_from_span lookup sp = range_new 0 0 0 0 <-> lo sp = 0 \/ hi sp = 0).
Proof.
  intros lookup sp Hlk. split; [|apply range_dummy].
  unfold get_range_from_span.
  destruct (N.eqb_spec (hi sp) 0); [auto|]. destruct (N.eqb_spec (lo sp) 0); [auto|]. cbn [orb].
  unfold range_new, as_u32. intros H. inversion H as [[H1 H2 H3 H4]].
  specialize (Hlk (lo sp) n0). rewrite N.mod_small in H1 by tauto. lia.
Qed.

(** ** Concrete cases *)

Definition ascii_only : N -> bool := fun _ => false.
Definition sample_comments : comments := mkComments
  (fun p => if p =? 7 then Some [chars " just a remark"; chars " istanbul ignore else: legacy"]
            else if p =? 9 then Some [chars "istanbul  ignore if"] else None)
  (fun p => if p =? 20 then Some [chars " istanbul ignore file "] else None).

Example hint_examples :
  hint_of_comment ascii_only (chars " istanbul ignore next ") = Some (chars "next") /\
  hint_of_comment ascii_only (chars "istanbul ignore nextline") = None /\
  hint_of_comment ascii_only (chars "* istanbul ignore next") = None /\
  hint_of_comment ascii_only (chars "istanbul ignore  if-branch") = Some (chars "if") /\
  hint_of_comment ascii_only (chars "istanbulignore if") = None /\
  hint_of_comment ascii_only (160 :: chars "istanbul ignore else") = Some (chars "else").
Proof. repeat split. Qed.

Example lookup_examples :
  should_ignore ascii_only sample_comments (Some (mkSpan 7 9)) = Some IIf /\
  should_ignore ascii_only sample_comments (Some (mkSpan 7 12)) = Some IElse /\
  should_ignore ascii_only sample_comments (Some (mkSpan 20 22)) = None /\
  should_ignore_file ascii_only sample_comments (mkSpan 3 20) = true /\
  should_ignore_file ascii_only sample_comments (mkSpan 7 9) = false.
Proof. repeat split. Qed.
