(** The debug comment holding the initial record, and reading the record back from the generated code (C50).

    create_coverage_fn_decl.rs:160-176 attaches the comment; spec/util/verifier.ts:82-90
    [lastFileCoverage] reads it. *)
From Coq Require Import NArith String Ascii List Bool Lia PeanoNat.
Import ListNotations.
From Verif Require Import Base IndexMap Decimal Oxide SourceCov Hints Ast Visitor VisitorEx CountingRoot Produced Json CovJson JsonParse Serde Builder.
Open Scope string_scope.

(** ** The comment *)
Definition marker : string := "__coverage_data_json_comment__::".
(** create_coverage_fn_decl.rs:172 *)
Definition debug_comment (fc : file_coverage) : string := marker ++ fc_text fc.
(** A [CommentKind::Block] comment as the code generator prints it: the text is not checked. *)
Definition block_comment (text : string) : string := "/*" ++ text ++ "*/".

(** ** Reading the code *)
(** [String.split] and [indexOf] look for the first occurrence. *)
Fixpoint cut (p s : string) : option (string * string) :=
  match strip p s with
  | Some r => Some ("", r)
  | None =>
      match s with
      | "" => None
      | String c s' => match cut p s' with Some (a, b) => Some (String c a, b) | None => None end
      end
  end.
Definition newline : ascii := "010".
Fixpoint lines (s : string) : list string :=
  match s with
  | "" => [""]
  | String c s' =>
      if Ascii.eqb c newline then "" :: lines s'
      else match lines s' with l :: ls => String c l :: ls | [] => [ch1 c] end
  end.
Definition includes (p s : string) : bool := match cut p s with Some _ => true | None => false end.
(** spec/util/verifier.ts:82-90: the line with the marker, what follows the marker up to the next marker,
    and of this what stands before the first [*/]; [None] when the text is missing or empty *)
Definition last_file_coverage (code : string) : option string :=
  match find (includes marker) (lines code) with
  | Some l =>
      match cut marker l with
      | Some (_, r) =>
          let x := match cut marker r with Some (a, _) => a | None => r end in
          match cut "*/" x with Some (String c a, _) => Some (String c a) | _ => None end
      | None => None
      end
  | None => None
  end.

(** ** Occurrences *)
Definition Occurs (p s : string) : Prop := exists a b, s = a ++ p ++ b.
Lemma strip_some : forall p s r, strip p s = Some r <-> s = p ++ r.
Proof.
  induction p as [|c p IH]; intros s r; cbn [strip append].
  - split; [intros H; now injection H|now intros ->].
  - destruct s as [|d s]; [split; discriminate|]. destruct (Ascii.eqb_spec c d) as [->|N].
    + rewrite IH. split; [now intros ->|intros H; now injection H].
    + split; [discriminate|]. intros H. injection H as E _. congruence.
Qed.
Lemma cut_sound : forall p s a b, cut p s = Some (a, b) -> s = a ++ p ++ b.
Proof.
  intros p. induction s as [|c s IH]; intros a b H; cbn [cut] in H.
  - destruct (strip p "") as [r|] eqn:E; [|discriminate]. injection H as <- <-. now apply strip_some in E.
  - destruct (strip p (String c s)) as [r|] eqn:E; [injection H as <- <-; now apply strip_some in E|].
    destruct (cut p s) as [[a' b']|]; [|discriminate]. injection H as <- <-. cbn [append]. now rewrite (IH a' b' eq_refl) at 1.
Qed.
Lemma cut_none : forall p s, cut p s = None <-> ~ Occurs p s.
Proof.
  intros p s. split.
  - intros H (a & b & ->). revert H. induction a as [|c a IH]; cbn [append cut].
    + assert (E : strip p (p ++ b) = Some b) by now apply strip_some. destruct (p ++ b); cbn [cut]; rewrite E; discriminate.
    + destruct (strip p (String c (a ++ p ++ b))); [discriminate|]. destruct (cut p (a ++ p ++ b)) as [[]|]; [discriminate|auto].
  - intros H. destruct (cut p s) as [[a b]|] eqn:E; [|reflexivity]. exfalso. apply H. exists a, b. now apply cut_sound.
Qed.
Lemma cut_earliest : forall p s a b a' b', cut p s = Some (a, b) -> s = a' ++ p ++ b' -> (String.length a <= String.length a')%nat.
Proof.
  intros p. induction s as [|c s IH]; intros a b a' b' H E; cbn [cut] in H.
  - destruct (strip p "") as [r|]; [injection H as <- <-; cbn; lia|discriminate].
  - destruct (strip p (String c s)) as [r|] eqn:S0; [injection H as <- <-; cbn; lia|].
    destruct (cut p s) as [[a1 b1]|] eqn:C; [|discriminate]. injection H as <- <-. destruct a' as [|d a'].
    + cbn [append] in E. apply strip_some in E. congruence.
    + cbn [append] in E. injection E as _ E. cbn [String.length]. specialize (IH a1 b1 a' b' eq_refl E). lia.
Qed.
Lemma cut_least : forall p s a b, cut p s = Some (a, b) -> p <> "" -> ~ Occurs p a.
Proof.
  intros p s a b H N (x & y & E). pose proof (cut_sound p s a b H) as S0. rewrite E in S0.
  assert (S1 : s = x ++ p ++ (y ++ p ++ b)) by (rewrite S0; now rewrite !sapp_assoc).
  apply (cut_earliest p s a b _ _ H) in S1. rewrite E, !len_app in S1. destruct p; [congruence|]. cbn in S1. lia.
Qed.
Lemma app_split : forall a b c d : string, a ++ b = c ++ d -> exists l, (a = c ++ l /\ d = l ++ b) \/ (c = a ++ l /\ b = l ++ d).
Proof.
  induction a as [|x a IH]; intros b c d H; cbn [append] in H.
  - exists c. right. now split.
  - destruct c as [|y c]; cbn [append] in H.
    + exists (String x a). left. split; [reflexivity|]. cbn [append]. now symmetry.
    + injection H as <- H. apply IH in H as (l & [[-> ->]|[-> ->]]); exists l; [left|right]; now split.
Qed.
(** A pattern none of whose proper ends is one of its beginnings *)
Definition no_overlap (p : string) : Prop := forall x l z, p = x ++ l -> p = l ++ z -> x <> "" -> l = "".
Lemma app_nil_both : forall a b : string, a ++ b = "" -> a = "" /\ b = "".
Proof. intros [] b H; [now split|discriminate]. Qed.
Lemma cut_first : forall p a t, no_overlap p -> ~ Occurs p a -> cut p (a ++ p ++ t) = Some (a, t).
Proof.
  intros p a t NO. induction a as [|c a IH]; intros H.
  - cbn [append]. assert (E : strip p (p ++ t) = Some t) by now apply strip_some. destruct (p ++ t); cbn [cut]; now rewrite E.
  - cbn [append cut]. destruct (strip p (String c (a ++ p ++ t))) as [r|] eqn:E.
    + exfalso. apply strip_some in E. change (String c (a ++ p ++ t)) with (String c a ++ (p ++ t)) in E.
      apply app_split in E as (l & [[E1 E2]|[E1 E2]]).
      * apply H. exists "", l. exact E1.
      * assert (L : l = "").
        { apply app_split in E2 as (z & [[E3 E4]|[E3 E4]]).
          - apply (NO (String c a) l z E1 E3). discriminate.
          - rewrite E3 in E1. apply (f_equal String.length) in E1. rewrite !len_app in E1. cbn in E1. lia. }
        rewrite L, sapp_nil in E1. apply H. exists "", "". cbn [append]. rewrite sapp_nil. now symmetry.
    + rewrite IH; [reflexivity|]. intros (x & y & ->). apply H. exists (String c x), y. reflexivity.
Qed.
Lemma marker_no_overlap : no_overlap marker.
Proof.
  intros x l z E F N. destruct x as [|c x]; [congruence|]. clear N. unfold marker in *.
  repeat (destruct x as [|? x]; cbn [append] in E; [injection E as; subst; discriminate F|]).
  cbn [append] in E. repeat match type of E with String _ _ = String _ _ => injection E as _ E end. destruct x; [now destruct l|discriminate].
Qed.
Lemma close_no_overlap : no_overlap "*/".
Proof.
  intros x l z E F N. destruct x as [|c [|d x]]; [congruence| |]; cbn [append] in E.
  - injection E as _ E. subst. discriminate F.
  - injection E as _ _ E. symmetry in E. now apply app_nil_both in E.
Qed.

(** ** Lines *)
Lemma lines_cons : forall s, exists l ls, lines s = l :: ls /\ (exists b, s = l ++ b).
Proof.
  induction s as [|c s (l & ls & E & b & B)]; cbn [lines]; [exists "", []; split; [reflexivity|now exists ""]|].
  destruct (Ascii.eqb c newline); [exists "", (lines s); split; [reflexivity|now exists (String c s)]|].
  rewrite E. exists (String c l), ls. split; [reflexivity|]. exists b. cbn [append]. now rewrite B at 1.
Qed.
Lemma lines_infix : forall s l, In l (lines s) -> exists a b, s = a ++ l ++ b.
Proof.
  induction s as [|c s IH]; cbn [lines]; intros l H.
  - destruct H as [<-|[]]. now exists "", "".
  - destruct (Ascii.eqb c newline).
    + destruct H as [<-|H]; [now exists "", (String c s)|]. destruct (IH l H) as (a & b & E). exists (String c a), b. cbn [append]. now rewrite <- E.
    + destruct (lines_cons s) as (l0 & ls & E & b & B). rewrite E in *. destruct H as [<-|H].
      * exists "", b. cbn [append]. now rewrite B at 1.
      * destruct (IH l (or_intror H)) as (a & b' & E'). exists (String c a), b'. cbn [append]. now rewrite <- E'.
Qed.
Lemma lines_app : forall a b, exists ls l l' ls', lines a = (ls ++ [l])%list /\ lines b = l' :: ls' /\ lines (a ++ b) = (ls ++ (l ++ l')%string :: ls')%list.
Proof.
  intros a b. destruct (lines_cons b) as (l' & ls' & E & _).
  induction a as [|c a (ls & l & l2 & ls2 & A1 & A2 & A3)].
  - exists [], "", l', ls'. auto.
  - cbn [append lines]. destruct (Ascii.eqb c newline).
    + exists ("" :: ls)%list, l, l2, ls2. rewrite A1, A3. auto.
    + rewrite A1, A3. destruct ls as [|l3 ls]; cbn [app]; [exists [], (String c l), l2, ls2|exists (String c l3 :: ls)%list, l, l2, ls2]; auto.
Qed.
Fixpoint one_line (s : string) : bool :=
  match s with "" => true | String c s' => negb (Ascii.eqb c newline) && one_line s' end.
Lemma lines_one : forall s, one_line s = true -> lines s = [s].
Proof.
  induction s as [|c s IH]; [reflexivity|]. cbn [one_line lines]. intros H. apply andb_prop in H as [N H].
  destruct (Ascii.eqb c newline); [discriminate|]. now rewrite (IH H).
Qed.
Lemma occurs_infix : forall p a s b, Occurs p s -> Occurs p (a ++ s ++ b).
Proof. intros p a s b (x & y & ->). exists (a ++ x), (y ++ b). now rewrite !sapp_assoc. Qed.

(** ** Reading the comment back *)
Lemma includes_iff : forall p s, includes p s = true <-> Occurs p s.
Proof.
  intros p s. unfold includes. destruct (cut p s) as [[a b]|] eqn:E.
  - split; [intros _; exists a, b; now apply cut_sound|reflexivity].
  - split; [discriminate|]. intros O. apply cut_none in E. contradiction.
Qed.
Fixpoint has_char (d : ascii) (s : string) : bool :=
  match s with "" => false | String c s' => Ascii.eqb d c || has_char d s' end.
Lemma has_char_app : forall d a b, has_char d (a ++ b) = has_char d a || has_char d b.
Proof. induction a as [|c a IH]; intros b; [reflexivity|]. cbn [append has_char]. now rewrite IH, orb_assoc. Qed.
(** Nothing new appears across a character that the pattern does not have. *)
Lemma occurs_sep : forall p a d b, has_char d p = false -> p <> "" -> Occurs p (a ++ String d b) -> Occurs p a \/ Occurs p b.
Proof.
  intros p a d b D N (x & y & E). apply app_split in E as (l & [[-> E]|[-> E]]).
  - apply app_split in E as (m & [[-> E]|[-> E]]).
    + destruct m as [|c m]; [left; rewrite sapp_nil; exists x, ""; now rewrite !sapp_nil|].
      cbn [append] in E. injection E as <- E. rewrite has_char_app in D. cbn in D. rewrite Ascii.eqb_refl, orb_true_r in D. discriminate.
    + left. now exists x, m.
  - destruct l as [|c l]; cbn [append] in E.
    + destruct p as [|c p]; [congruence|]. cbn in E. injection E as <- E. cbn in D. rewrite Ascii.eqb_refl in D. discriminate.
    + injection E as <- ->. right. now exists l, y.
Qed.
(** The text of a debug comment is found in the generated code, provided that the text has no line break,
    does not contain the marker or the end of a comment, and the marker does not stand before. *)
Theorem read_debug_comment : forall pre text post, text <> "" -> one_line text = true ->
  ~ Occurs marker pre -> ~ Occurs marker text -> ~ Occurs "*/" text ->
  last_file_coverage (pre ++ block_comment (marker ++ text) ++ post) = Some text.
Proof.
  intros pre text post N L Hpre Hm Hc. unfold block_comment, last_file_coverage.
  replace (("/*" ++ (marker ++ text) ++ "*/") ++ post) with (("/*" ++ marker ++ text ++ "*/") ++ post) by now rewrite !sapp_assoc.
  destruct (lines_app pre (("/*" ++ marker ++ text ++ "*/") ++ post)) as (ls & l & l1 & ls1 & A1 & A2 & A3).
  destruct (lines_app ("/*" ++ marker ++ text ++ "*/") post) as (ls2 & l2 & l3 & ls3 & B1 & B2 & B3).
  assert (O : one_line ("/*" ++ marker ++ text ++ "*/") = true).
  { change (one_line (text ++ "*/") = true). clear -L. induction text as [|c t IH]; [reflexivity|]. cbn [append one_line] in *.
    apply andb_prop in L as [-> L]. now apply IH. }
  rewrite (lines_one _ O) in B1. destruct ls2 as [|x [|y ls2]]; try discriminate B1. cbn [app] in B1, B3.
  assert (Q0 : l2 = "/*" ++ marker ++ text ++ "*/") by congruence. rewrite Q0 in B3. clear Q0 B1 l2.
  rewrite B3 in A2. assert (Q1 : l1 = ("/*" ++ marker ++ text ++ "*/") ++ l3) by congruence. assert (Q2 : ls1 = ls3) by congruence.
  rewrite A3, Q1, Q2. clear A2 A3 B3 O Q1 Q2.
  assert (P : forall k, In k (lines pre) -> ~ Occurs marker k).
  { intros k I O. apply Hpre. apply lines_infix in I as (a & b & ->). now apply occurs_infix. }
  rewrite A1 in P.
  assert (F : find (includes marker) (ls ++ (l ++ ("/*" ++ marker ++ text ++ "*/") ++ l3)%string :: ls3)%list =
              Some (l ++ ("/*" ++ marker ++ text ++ "*/") ++ l3)).
  { assert (Q : forall k, In k ls -> includes marker k = false).
    { intros k I. destruct (includes marker k) eqn:E; [|reflexivity]. apply includes_iff in E. exfalso. apply (P k); [|exact E].
      apply in_app_iff. now left. }
    clear -Q. induction ls as [|k ls IH]; cbn [app find].
    - rewrite (proj2 (includes_iff _ _)); [reflexivity|]. exists (l ++ "/*"), ((text ++ "*/") ++ l3). now rewrite !sapp_assoc.
    - rewrite (Q k) by now left. apply IH. intros; apply Q; now right. }
  rewrite F. clear F.
  assert (M : ~ Occurs marker (l ++ "/*")).
  { intros O. apply occurs_sep in O as [O|O]; [| |reflexivity|discriminate].
    - apply (P l); [|exact O]. apply in_app_iff. right. now left.
    - destruct O as (a & b & E). apply (f_equal String.length) in E. rewrite !len_app in E. cbn in E. lia. }
  replace (l ++ ("/*" ++ marker ++ text ++ "*/") ++ l3) with ((l ++ "/*") ++ marker ++ (text ++ "*/" ++ l3)) by now rewrite !sapp_assoc.
  rewrite (cut_first _ _ _ marker_no_overlap M).
  assert (C : forall r, cut "*/" (text ++ "*/" ++ r) = Some (text, r)) by (intros; now apply cut_first; [apply close_no_overlap|]).
  assert (D : exists r, match cut marker (text ++ "*/" ++ l3) with Some (a, _) => a | None => text ++ "*/" ++ l3 end = text ++ "*/" ++ r).
  { destruct (cut marker (text ++ "*/" ++ l3)) as [[a b]|] eqn:E; [|now exists l3].
    apply cut_sound in E. cbn [append] in E. apply app_split in E as (k & [[E1 E2]|[E1 E2]]).
    - exfalso. apply app_split in E2 as (j & [[E3 E4]|[E3 E4]]).
      + destruct j as [|c j]; cbn [append] in E4.
        * rewrite sapp_nil in E3. apply Hm. exists a, "". now rewrite sapp_nil, E3, E1.
        * injection E4 as <- _. assert (Z : has_char "*" marker = true) by (rewrite E3, has_char_app; cbn; now rewrite orb_true_r).
          discriminate Z.
      + apply Hm. exists a, j. now rewrite E1, E3.
    - destruct k as [|c [|d k]]; cbn [append] in E2.
      + unfold marker in E2. cbn in E2. discriminate E2.
      + injection E2 as _ E2. unfold marker in E2. cbn in E2. discriminate E2.
      + injection E2 as <- <- E2. exists k. rewrite E1. reflexivity. }
  destruct D as (r & ->). rewrite C. destruct text; [congruence|reflexivity].
Qed.

(** ** Where a text can occur in printed JSON *)
Fixpoint strings (j : json) : list string :=
  match j with
  | JStr s => [s]
  | JArr l => flat_map strings l
  | JObj o => flat_map (fun kv => fst kv :: strings (snd kv)) o
  | _ => []
  end%list.
(** Characters JSON puts around and between strings, and inside escapes *)
Definition letter (c : ascii) : bool := has_char c "0123456789nulltruefalse".
Definition punct (c : ascii) : bool := has_char c (String dquote "{}[],").
Definition in_escape (c : ascii) : bool := has_char c (String dquote (String backslash "btnfru0123456789abcdef")).
Definition verbatim (c : ascii) : bool := negb (Ascii.eqb c dquote) && negb (Ascii.eqb c backslash) && Nat.leb 32 (nat_of_ascii c).
Fixpoint some_char (f : ascii -> bool) (s : string) : bool :=
  match s with "" => false | String c s' => f c || some_char f s' end.
(** A text that JSON does not produce by itself *)
Definition foreign (p : string) : bool :=
  match p with
  | "" => false
  | String c _ => negb (in_escape c) && negb (Ascii.eqb c ":") && all_chars verbatim p && negb (some_char punct p) &&
                  some_char (fun c => negb (letter c)) p
  end.
Lemma escape_tail : forall c a d l, escape_char c = a ++ String d l -> a <> "" -> in_escape d = true.
Proof.
  intros c a d l H N.
  assert (T : match escape_char c with "" => true | String _ t => all_chars in_escape t end = true)
    by (destruct c as [[] [] [] [] [] [] [] []]; reflexivity).
  rewrite H in T. destruct a as [|x a]; [congruence|]. cbn [append] in T.
  clear H N. induction a as [|y a IH]; cbn [append all_chars] in T; apply andb_prop in T as [T1 T2]; auto.
Qed.
Lemma escape_verbatim : forall c, verbatim c = true -> escape_char c = ch1 c.
Proof. intros c. destruct c as [[] [] [] [] [] [] [] []]; cbv; intros H; (discriminate H || reflexivity). Qed.
Lemma escape_other : forall c, verbatim c = false -> exists t, escape_char c = String backslash t.
Proof. intros c. destruct c as [[] [] [] [] [] [] [] []]; cbv; intros H; try discriminate H; eexists; reflexivity. Qed.
Lemma escape_app : forall a b, escape (a ++ b) = escape a ++ escape b.
Proof. induction a as [|c a IH]; intros b; [reflexivity|]. cbn [append escape]. now rewrite IH, sapp_assoc. Qed.
Lemma escape_plain : forall p, all_chars verbatim p = true -> escape p = p.
Proof.
  induction p as [|c p IH]; [reflexivity|]. cbn [all_chars escape]. intros H. apply andb_prop in H as [Hc H].
  rewrite (escape_verbatim c Hc), (IH H). reflexivity.
Qed.
Lemma escape_prefix : forall p s r, all_chars verbatim p = true -> escape s = p ++ r -> exists r', s = p ++ r'.
Proof.
  induction p as [|d p IH]; intros s r H E; [now exists s|]. cbn [all_chars] in H. apply andb_prop in H as [Hd H].
  destruct s as [|c s]; [discriminate|]. cbn [escape append] in E. destruct (verbatim c) eqn:V.
  - rewrite (escape_verbatim c V) in E. cbn [ch1 append] in E. injection E as -> E. apply IH in E as (r' & ->); [|exact H]. now exists r'.
  - destruct (escape_other c V) as (t & T). rewrite T in E. cbn [append] in E. injection E as <- _. discriminate Hd.
Qed.
Lemma escape_occurs : forall p s, foreign p = true -> (Occurs p (escape s) <-> Occurs p s).
Proof.
  intros p s F. destruct p as [|d p]; [discriminate|]. cbn [foreign] in F.
  apply andb_prop in F as [F _]. apply andb_prop in F as [F _]. apply andb_prop in F as [F V]. apply andb_prop in F as [F _].
  apply negb_true_iff in F. split.
  - induction s as [|c s IH]; cbn [escape].
    + intros (a & b & E). symmetry in E. apply app_nil_both in E as [_ E]. discriminate E.
    + intros (a & b & E). destruct a as [|x a].
      { change (escape (String c s) = String d p ++ b) in E. apply escape_prefix in E as (r & ->); [|exact V]. now exists "", r. }
      apply app_split in E as (l & [[E1 E2]|[E1 E2]]).
      * destruct l as [|y l].
        -- cbn [append] in E2. destruct IH as (a' & b' & E'). { exists "", b. now symmetry. }
           exists (String c a'), b'. now rewrite E'.
        -- cbn [append] in E2. injection E2 as <- _. apply escape_tail in E1; [congruence|discriminate].
      * destruct IH as (a' & b' & E'); [now exists l, b|]. exists (String c a'), b'. now rewrite E'.
  - intros (a & b & ->). exists (escape a), (escape b). rewrite !escape_app. now rewrite (escape_plain _ V).
Qed.
Lemma occurs_head : forall d p c s, c <> d -> Occurs (String d p) (String c s) -> Occurs (String d p) s.
Proof. intros d p c s N ([|x a] & b & E); cbn [append] in E; injection E as E1 E2; [congruence|]. exists a, b. exact E2. Qed.
Lemma no_punct : forall p c, some_char punct p = false -> punct c = true -> has_char c p = false.
Proof.
  intros p c H P. induction p as [|d p IH]; [reflexivity|]. cbn [some_char has_char] in *. apply orb_false_iff in H as [Hd H].
  rewrite (IH H), orb_false_r. destruct (Ascii.eqb_spec c d) as [->|]; [congruence|reflexivity].
Qed.
Lemma no_letters : forall p s, some_char (fun c => negb (letter c)) p = true -> all_chars letter s = true -> ~ Occurs p s.
Proof.
  intros p s H L (a & b & ->).
  assert (A : forall x y, all_chars letter (x ++ y) = all_chars letter x && all_chars letter y).
  { induction x as [|c x IH]; intros y; [reflexivity|]. cbn [append all_chars]. now rewrite IH, andb_assoc. }
  rewrite !A in L. apply andb_prop in L as [_ L]. apply andb_prop in L as [L _]. clear -H L.
  induction p as [|c p IH]; [discriminate|]. cbn [some_char all_chars] in *. apply andb_prop in L as [Lc L].
  rewrite Lc in H. cbn [negb orb] in H. auto.
Qed.
Lemma digits_letters : forall n, all_chars letter (dec n) = true.
Proof.
  intros n. pose proof (dec_digits n) as D. induction (dec n) as [|c s IH]; [reflexivity|]. cbn [all_chars] in *.
  apply andb_prop in D as [Dc D]. rewrite (IH D), andb_true_r. destruct c as [[] [] [] [] [] [] [] []]; cbv in Dc; try discriminate Dc; reflexivity.
Qed.
Theorem print_occurs : forall p j, foreign p = true -> (Occurs p (print j) <-> exists s, In s (strings j) /\ Occurs p s).
Proof.
  intros p j F. pose proof F as F'. destruct p as [|d p']; [discriminate|]. cbn [foreign] in F'.
  apply andb_prop in F' as [F' NL]. apply andb_prop in F' as [F' P]. apply andb_prop in F' as [F' V]. apply andb_prop in F' as [_ C].
  apply negb_true_iff in P, C. assert (Cn : ":"%char <> d) by (intros <-; discriminate C). clear C.
  set (p := String d p') in *. assert (Ne : p <> "") by discriminate.
  assert (SEP : forall c a b, punct c = true -> Occurs p (a ++ String c b) -> Occurs p a \/ Occurs p b).
  { intros c a b Pc O. apply occurs_sep in O; [exact O| |exact Ne]. now apply no_punct. }
  assert (HD : forall c s, punct c = true -> Occurs p (String c s) -> Occurs p s).
  { intros c s Pc O. apply (SEP c "" s) in O as [(a & b & O)|O]; [|exact O|exact Pc].
    symmetry in O. apply app_nil_both in O as [_ O]. discriminate O. }
  assert (NIL : ~ Occurs p "").
  { intros (a & b & O). symmetry in O. apply app_nil_both in O as [_ O]. discriminate O. }
  Transparent quoted.
  assert (Q : forall s r, Occurs p (quoted s ++ r) -> Occurs p s \/ Occurs p r).
  { intros s r O. unfold quoted in O. cbn [append ch1] in O. rewrite sapp_assoc in O. apply HD in O; [|reflexivity].
    cbn [append] in O. apply SEP in O as [O|O]; [left; now apply escape_occurs|right; exact O|reflexivity]. }
  assert (Q' : forall s, Occurs p s -> Occurs p (quoted s)).
  { intros s O. apply (escape_occurs p s F) in O. unfold quoted. apply (occurs_infix p (ch1 dquote) _ (ch1 dquote) O). }
  Opaque quoted.
  split.
  - induction j as [|b|n|s|l IH|o IH] using json_ind'; intros O.
    + exfalso. revert O. now apply no_letters.
    + exfalso. revert O. destruct b; now apply no_letters.
    + exfalso. revert O. apply no_letters; [exact NL|apply digits_letters].
    + cbn [print] in O. rewrite <- (sapp_nil (quoted s)) in O. apply Q in O as [O|O]; [|contradiction]. exists s. split; [now left|exact O].
    + cbn [strings]. destruct l as [|x l]; [exfalso; apply HD in O; [apply HD in O; [contradiction|]|]; reflexivity|].
      rewrite print_arr in O. cbn [append] in O. apply HD in O; [|reflexivity].
      assert (T : forall l x, Forall (fun j => Occurs p (print j) -> exists s, In s (strings j) /\ Occurs p s) l ->
        (Occurs p (print x) -> exists s, In s (strings x) /\ Occurs p s) -> Occurs p (print x ++ print_tail l) ->
        exists s, In s (flat_map strings (x :: l)) /\ Occurs p s).
      { clear l x IH O. intros l. induction l as [|y l IHl]; intros x FA Hx O; cbn [print_tail] in O.
        - apply SEP in O as [O|O]; [|contradiction|reflexivity]. apply Hx in O as (s & I & O). exists s. split; [|exact O].
          cbn [flat_map]. apply in_app_iff. now left.
        - cbn [append] in O. apply SEP in O as [O|O]; [| |reflexivity].
          + apply Hx in O as (s & I & O). exists s. split; [|exact O]. cbn [flat_map]. apply in_app_iff. now left.
          + inversion FA as [|? ? Fy Fl]; subst. apply IHl in O as (s & I & O); [|exact Fl|exact Fy]. exists s. split; [|exact O].
            change (In s (strings x ++ flat_map strings (y :: l))%list). apply in_app_iff. now right. }
      inversion IH as [|? ? Fx Fl]; subst. now apply T.
    + cbn [strings]. destruct o as [|[k x] o]; [exfalso; apply HD in O; [apply HD in O; [contradiction|]|]; reflexivity|].
      rewrite print_obj in O. cbn [append] in O. apply HD in O; [|reflexivity].
      assert (T : forall o k x, Forall (fun kv : string * json => Occurs p (print (snd kv)) -> exists s, In s (strings (snd kv)) /\ Occurs p s) o ->
        (Occurs p (print x) -> exists s, In s (strings x) /\ Occurs p s) -> Occurs p (quoted k ++ String ":" (print x ++ print_otail o)) ->
        exists s, In s (flat_map (fun kv => fst kv :: strings (snd kv)) ((k, x) :: o)) /\ Occurs p s).
      { clear o k x IH O. intros o. induction o as [|[k' y] o IHo]; intros k x FA Hx O; cbn [print_otail] in O;
          (apply Q in O as [O|O]; [exists k; split; [now left|exact O]|]); apply occurs_head in O; try exact Cn.
        - apply SEP in O as [O|O]; [|contradiction|reflexivity]. apply Hx in O as (s & I & O). exists s. split; [|exact O].
          cbn [flat_map fst snd]. right. apply in_app_iff. now left.
        - cbn [append] in O. apply SEP in O as [O|O]; [| |reflexivity].
          + apply Hx in O as (s & I & O). exists s. split; [|exact O]. cbn [flat_map fst snd]. right. apply in_app_iff. now left.
          + inversion FA as [|? ? Fy Fl]; subst. apply IHo in O as (s & I & O); [|exact Fl|exact Fy]. exists s. split; [|exact O].
            change (In s (k :: strings x ++ flat_map (fun kv => fst kv :: strings (snd kv)) ((k', y) :: o))%list). right. apply in_app_iff. now right. }
      inversion IH as [|? ? Fx Fl]; subst. now apply T.
  - intros (s & I & O). revert I. induction j as [|b|n|s'|l IH|o IH] using json_ind'; cbn [strings]; intros I; try contradiction I.
    + destruct I as [->|[]]. now apply Q'.
    + destruct l as [|x l]; [contradiction I|]. rewrite print_arr.
      assert (T : forall l x, Forall (fun j => In s (strings j) -> Occurs p (print j)) l -> (In s (strings x) -> Occurs p (print x)) ->
        In s (flat_map strings (x :: l)) -> Occurs p (print x ++ print_tail l)).
      { clear l x IH I. induction l as [|y l IHl]; intros x FA Hx I.
        - cbn [flat_map] in I. rewrite app_nil_r in I. apply (occurs_infix p "" _ _ (Hx I)).
        - change (In s (strings x ++ flat_map strings (y :: l))%list) in I. apply in_app_iff in I as [I|I].
          + apply (occurs_infix p "" _ _ (Hx I)).
          + inversion FA as [|? ? Fy Fl]; subst. cbn [print_tail]. specialize (IHl y Fl Fy I).
            apply (occurs_infix p (print x ++ ",") _ "") in IHl. rewrite sapp_nil, !sapp_assoc in IHl. exact IHl. }
      inversion IH as [|? ? Fx Fl]; subst. specialize (T l x Fl Fx I). apply (occurs_infix p "[" _ "") in T. now rewrite sapp_nil in T.
    + destruct o as [|[k x] o]; [contradiction I|]. rewrite print_obj.
      assert (T : forall o k x, Forall (fun kv : string * json => In s (strings (snd kv)) -> Occurs p (print (snd kv))) o ->
        (In s (strings x) -> Occurs p (print x)) -> In s (flat_map (fun kv => fst kv :: strings (snd kv)) ((k, x) :: o)) ->
        Occurs p (quoted k ++ ":" ++ print x ++ print_otail o)).
      { clear o k x IH I. induction o as [|[k' y] o IHo]; intros k x FA Hx I; cbn [flat_map fst snd] in I.
        - rewrite app_nil_r in I. destruct I as [->|I]; [apply (occurs_infix p "" _ _ (Q' s O))|].
          apply (occurs_infix p (quoted k ++ ":") _ (print_otail [])) in Hx; [|exact I]. now rewrite !sapp_assoc in Hx.
        - change (In s ((k :: strings x) ++ flat_map (fun kv => fst kv :: strings (snd kv)) ((k', y) :: o))%list) in I.
          apply in_app_iff in I as [[->|I]|I]; [apply (occurs_infix p "" _ _ (Q' s O))| |].
          + apply (occurs_infix p (quoted k ++ ":") _ (print_otail ((k', y) :: o))) in Hx; [|exact I]. now rewrite !sapp_assoc in Hx.
          + inversion FA as [|? ? Fy Fl]; subst. specialize (IHo k' y Fl Fy I). cbn [print_otail].
            apply (occurs_infix p (quoted k ++ ":" ++ print x ++ ",") _ "") in IHo. rewrite sapp_nil, !sapp_assoc in IHo. exact IHo. }
      inversion IH as [|? ? Fx Fl]; subst. specialize (T o k x Fl Fx I). apply (occurs_infix p "{" _ "") in T. now rewrite sapp_nil in T.
Qed.

(** ** The strings of a record *)
Definition opt_list {A} (o : option A) : list A := match o with Some a => [a] | None => [] end.
Definition source_map_strings (m : source_map) : list string :=
  (opt_list (sm_file m) ++ opt_list (sm_source_root m) ++ sm_sources m ++
   match sm_sources_content m with Some l => flat_map opt_list l | None => [] end ++ sm_names m ++ [sm_mappings m])%list.
Definition record_strings (fc : file_coverage) : list string :=
  (fc_path fc :: map (fun kf => f_name (snd kf)) (fc_fn_map fc) ++
   match fc_input_source_map fc with Some m => source_map_strings m | None => [] end)%list.
(** Member names, branch types and numbers *)
Definition word (c : ascii) : bool := has_char c "-0123456789abcdefghijklmnopqrstuvwxyzABCDEFGHIJKLMNOPQRSTUVWXYZ".
Definition fixed (R : list string) (j : json) : Prop := forall s, In s (strings j) -> all_chars word s = true \/ In s R.
Lemma fixed_obj : forall R o, Forall (fun kv => all_chars word (fst kv) = true /\ fixed R (snd kv)) o -> fixed R (JObj o).
Proof.
  intros R o H s I. cbn [strings] in I. apply in_flat_map in I as ([k x] & I & J). rewrite Forall_forall in H.
  destruct (H _ I) as [K X]. destruct J as [<-|J]; [now left|]. now apply X.
Qed.
Lemma fixed_arr : forall R l, Forall (fixed R) l -> fixed R (JArr l).
Proof. intros R l H s I. cbn [strings] in I. apply in_flat_map in I as (x & I & J). rewrite Forall_forall in H. now apply (H x). Qed.
Lemma fixed_num : forall R n, fixed R (JNum n). Proof. intros R n s []. Qed.
Lemma fixed_bool : forall R n, fixed R (JBool n). Proof. intros R n s []. Qed.
Lemma fixed_null : forall R, fixed R JNull. Proof. intros R s []. Qed.
Lemma fixed_str : forall R s, In s R -> fixed R (JStr s). Proof. intros R s H t [<-|[]]. now right. Qed.
Lemma fixed_word : forall R s, all_chars word s = true -> fixed R (JStr s). Proof. intros R s H t [<-|[]]. now left. Qed.
Lemma dec_word : forall n, all_chars word (dec n) = true.
Proof.
  intros n. pose proof (dec_digits n) as D. induction (dec n) as [|c s IH]; [reflexivity|]. cbn [all_chars] in *.
  apply andb_prop in D as [Dc D]. rewrite (IH D), andb_true_r. destruct c as [[] [] [] [] [] [] [] []]; cbv in Dc; try discriminate Dc; reflexivity.
Qed.
Lemma fixed_map : forall A R (f : A -> json) (m : imap N A), (forall kv, In kv m -> fixed R (f (snd kv))) -> fixed R (map_json f m).
Proof.
  intros A R f m H. apply fixed_obj. apply Forall_forall. intros kv I. apply in_map_iff in I as (kv' & <- & I). cbn [fst snd].
  split; [apply dec_word|now apply H].
Qed.
Lemma fixed_list : forall A R (f : A -> json) l, (forall x, In x l -> fixed R (f x)) -> fixed R (JArr (map f l)).
Proof. intros A R f l H. apply fixed_arr. apply Forall_forall. intros j I. apply in_map_iff in I as (x & <- & I). now apply H. Qed.
Ltac obj := apply fixed_obj; repeat first [apply Forall_nil | apply Forall_cons]; cbn [fst snd]; (split; [reflexivity|]).
Lemma fixed_range : forall R r, fixed R (range_json r).
Proof. intros R r. unfold range_json, loc_json. obj; obj; apply fixed_num. Qed.
Lemma fixed_source_map : forall R m, (forall s, In s (source_map_strings m) -> In s R) -> fixed R (source_map_json m).
Proof.
  intros R [v f sr so sc na ma] H. unfold source_map_strings in H.
  cbn [sm_version sm_file sm_source_root sm_sources sm_sources_content sm_names sm_mappings] in H.
  assert (H1 : forall s, f = Some s -> In s R) by (intros s ->; apply H; now left).
  assert (H2 : forall s, sr = Some s -> In s R) by (intros s ->; apply H, in_app_iff; right; now left).
  assert (H3 : forall s, In s so -> In s R) by (intros s I; apply H; rewrite !in_app_iff; auto).
  assert (H4 : forall l s, sc = Some l -> In (Some s) l -> In s R).
  { intros l s -> I. apply H. rewrite !in_app_iff. do 3 right. left. apply in_flat_map. exists (Some s). split; [exact I|now left]. }
  assert (H5 : forall s, In s na -> In s R) by (intros s I; apply H; rewrite !in_app_iff; auto 10).
  assert (H6 : In ma R) by (apply H; rewrite !in_app_iff; do 5 right; now left).
  unfold source_map_json, strs_json. cbn [sm_version sm_file sm_source_root sm_sources sm_sources_content sm_names sm_mappings].
  apply fixed_obj. apply Forall_cons; [split; [reflexivity|apply fixed_num]|].
  apply Forall_app. split. { destruct f; cbn [field_opt]; [|constructor]. constructor; [|constructor]. split; [reflexivity|]. now apply fixed_str, H1. }
  apply Forall_app. split. { destruct sr; cbn [field_opt]; [|constructor]. constructor; [|constructor]. split; [reflexivity|]. now apply fixed_str, H2. }
  apply Forall_cons. { split; [reflexivity|]. apply fixed_list. intros s I. now apply fixed_str, H3. }
  apply Forall_app. split.
  { destruct sc as [l|]; cbn [field_opt]; [|constructor]. constructor; [|constructor]. split; [reflexivity|]. apply fixed_list.
    intros [s|] I; cbn [opt_json]; [|apply fixed_null]. apply fixed_str. now apply (H4 l). }
  constructor; [|constructor; [|constructor]]; (split; [reflexivity|]); [|now apply fixed_str].
  apply fixed_list. intros s I. now apply fixed_str, H5.
Qed.
Lemma record_strings_spec : forall fc s, In s (strings (fc_json fc)) -> all_chars word s = true \/ In s (record_strings fc).
Proof.
  intros fc. change (fixed (record_strings fc) (fc_json fc)). set (R := record_strings fc).
  assert (RP : In (fc_path fc) R) by now left.
  assert (RF : forall kf, In kf (fc_fn_map fc) -> In (f_name (snd kf)) R).
  { intros kf I. right. apply in_app_iff. left. now apply (in_map (fun kf => f_name (snd kf))). }
  assert (RM : forall m s, fc_input_source_map fc = Some m -> In s (source_map_strings m) -> In s R).
  { intros m s E I. right. apply in_app_iff. right. now rewrite E. }
  clearbody R. unfold fc_json, fc_fields. apply fixed_obj.
  apply Forall_cons; [split; [reflexivity|apply fixed_bool]|].
  apply Forall_cons; [split; [reflexivity|now apply fixed_str]|].
  apply Forall_cons; [split; [reflexivity|apply fixed_map; intros; apply fixed_range]|].
  apply Forall_cons.
  { split; [reflexivity|]. apply fixed_map. intros kf I. unfold func_json. obj;
      [now apply fixed_str, RF|apply fixed_range|apply fixed_range|apply fixed_num]. }
  apply Forall_cons.
  { split; [reflexivity|]. apply fixed_map. intros kb I. unfold branch_json. obj.
    - destruct (b_loc (snd kb)); [apply fixed_range|apply fixed_null].
    - apply fixed_word. now destruct (b_type (snd kb)).
    - apply fixed_list. intros; apply fixed_range.
    - destruct (b_line (snd kb)); [apply fixed_num|apply fixed_null]. }
  do 2 (apply Forall_cons; [split; [reflexivity|apply fixed_map; intros; apply fixed_num]|]).
  assert (NU : forall l, fixed R (nums_json l)) by (intros l; apply fixed_list; intros; apply fixed_num).
  apply Forall_cons; [split; [reflexivity|apply fixed_map; intros; apply NU]|].
  apply Forall_app. split.
  - destruct (fc_b_t fc); cbn [field_opt]; [|constructor]. constructor; [|constructor]. split; [reflexivity|]. apply fixed_map. intros; apply NU.
  - destruct (fc_input_source_map fc) as [m|] eqn:E; cbn [field_opt]; [|constructor]. constructor; [|constructor]. split; [reflexivity|].
    apply fixed_source_map. intros s I. now apply (RM m).
Qed.
Lemma strings_member : forall o k x s, In (k, x) o -> In s (strings x) -> In s (strings (JObj o)).
Proof. intros o k x s I J. cbn [strings]. apply in_flat_map. exists (k, x). split; [exact I|]. now right. Qed.
Lemma strings_element : forall A (f : A -> json) l x s, In x l -> In s (strings (f x)) -> In s (strings (JArr (map f l))).
Proof. intros A f l x s I J. cbn [strings]. apply in_flat_map. exists (f x). split; [now apply in_map|exact J]. Qed.
Lemma record_strings_in : forall fc s, In s (record_strings fc) -> In s (strings (fc_json fc)).
Proof.
  intros fc s H. unfold fc_json, fc_fields. destruct H as [<-|H].
  - apply strings_member with "path" (JStr (fc_path fc)); [right; now left|now left].
  - apply in_app_iff in H as [H|H].
    + apply in_map_iff in H as (kf & <- & I). apply strings_member with "fnMap" (map_json func_json (fc_fn_map fc)); [cbn; tauto|].
      apply strings_member with (dec (fst kf)) (func_json (snd kf)); [now apply (in_map (fun kv => (dec (fst kv), func_json (snd kv))))|].
      apply strings_member with "name" (JStr (f_name (snd kf))); now left.
    + destruct (fc_input_source_map fc) as [m|]; [|contradiction H].
      apply strings_member with "inputSourceMap" (source_map_json m).
      { do 8 right. apply in_app_iff. right. now left. }
      unfold source_map_strings in H. unfold source_map_json. rewrite !in_app_iff in H.
      destruct H as [H|[H|[H|[H|[H|H]]]]].
      * destruct (sm_file m) as [f|]; [|contradiction H]. apply strings_member with "file" (JStr f); [|exact H].
        right. apply in_app_iff. left. now left.
      * destruct (sm_source_root m) as [f|]; [|contradiction H]. apply strings_member with "sourceRoot" (JStr f); [|exact H].
        right. apply in_app_iff. right. apply in_app_iff. left. now left.
      * apply strings_member with "sources" (strs_json (sm_sources m)).
        { right. apply in_app_iff. right. apply in_app_iff. right. now left. }
        apply strings_element with s; [exact H|now left].
      * destruct (sm_sources_content m) as [l|]; [|contradiction H].
        apply strings_member with "sourcesContent" (JArr (map (opt_json JStr) l)).
        { right. apply in_app_iff. right. apply in_app_iff. right. right. apply in_app_iff. left. now left. }
        apply in_flat_map in H as ([c|] & I & J); [|contradiction J]. apply strings_element with (Some c); [exact I|exact J].
      * apply strings_member with "names" (strs_json (sm_names m)).
        { right. do 2 (apply in_app_iff; right). right. apply in_app_iff. right. now left. }
        apply strings_element with s; [exact H|now left].
      * apply strings_member with "mappings" (JStr (sm_mappings m)); [|exact H].
        right. do 2 (apply in_app_iff; right). right. apply in_app_iff. right. right. now left.
Qed.
Lemma occurs_char : forall c p s, has_char c p = true -> Occurs p s -> has_char c s = true.
Proof. intros c p s H (a & b & ->). rewrite !has_char_app, H. now rewrite orb_true_r. Qed.
Lemma no_digit : forall c n, is_digit c = false -> has_char c (dec n) = false.
Proof.
  intros c n H. pose proof (dec_digits n) as D. induction (dec n) as [|d s IH]; [reflexivity|]. cbn [all_chars has_char] in *.
  apply andb_prop in D as [Dd D]. rewrite (IH D), orb_false_r. destruct (Ascii.eqb_spec c d) as [->|]; [congruence|reflexivity].
Qed.
Lemma word_has : forall c s, all_chars word s = true -> word c = false -> has_char c s = false.
Proof.
  intros c s H W. induction s as [|d s IH]; [reflexivity|]. cbn [all_chars has_char] in *. apply andb_prop in H as [Hd H].
  rewrite (IH H), orb_false_r. destruct (Ascii.eqb_spec c d) as [->|]; [congruence|reflexivity].
Qed.
(** The end of a comment, or the marker, stands in the text of a record exactly when it stands in its path,
    in the name of a function or in a string of its source map. *)
Theorem record_text_occurs : forall p fc, p = marker \/ p = "*/" ->
  (Occurs p (fc_text fc) <-> exists s, In s (record_strings fc) /\ Occurs p s).
Proof.
  intros p fc E. unfold fc_text. rewrite print_occurs by (now destruct E; subst). split.
  - intros (s & I & O). exists s. split; [|exact O]. apply record_strings_spec in I as [I|I]; [exfalso|exact I].
    destruct E as [->| ->].
    + apply (occurs_char "_") in O; [|reflexivity]. rewrite (word_has _ _ I) in O; [discriminate|reflexivity].
    + apply (occurs_char "*") in O; [|reflexivity]. rewrite (word_has _ _ I) in O; [discriminate|reflexivity].
  - intros (s & I & O). exists s. split; [now apply record_strings_in|exact O].
Qed.
Lemma one_line_app : forall a b, one_line (a ++ b) = one_line a && one_line b.
Proof. induction a as [|c a IH]; intros b; [reflexivity|]. cbn [append one_line]. now rewrite IH, andb_assoc. Qed.
Lemma print_one_line : forall j, one_line (print j) = true.
Proof.
  assert (E : forall s, one_line (escape s) = true).
  { induction s as [|c s IH]; [reflexivity|]. cbn [escape]. rewrite one_line_app, IH, andb_true_r.
    destruct c as [[] [] [] [] [] [] [] []]; reflexivity. }
  Transparent quoted.
  assert (Q : forall s, one_line (quoted s) = true).
  { intros s. unfold quoted. cbn [one_line]. rewrite one_line_app, E. reflexivity. }
  Opaque quoted.
  intros j. induction j as [|b|n|s|l IH|o IH] using json_ind'; try reflexivity.
  - now destruct b.
  - cbn [print]. pose proof (dec_digits n) as D. induction (dec n) as [|c s IH]; [reflexivity|]. cbn [all_chars one_line] in *.
    apply andb_prop in D as [Dc D]. rewrite (IH D), andb_true_r. destruct c as [[] [] [] [] [] [] [] []]; cbv in Dc; try discriminate Dc; reflexivity.
  - apply Q.
  - destruct l as [|x l]; [reflexivity|]. rewrite print_arr. inversion IH as [|? ? Hx Hl]; subst. rewrite !one_line_app, Hx. cbn [andb].
    induction Hl as [|y l Hy _ IHl]; [reflexivity|]. cbn [print_tail]. rewrite !one_line_app, Hy. cbn [andb]. apply IHl.
    inversion IH as [|? ? _ Hl']; subst. constructor; [exact Hx|]. now inversion Hl'.
  - destruct o as [|[k x] o]; [reflexivity|]. rewrite print_obj. inversion IH as [|? ? Hx Hl]; subst. cbn [snd] in Hx.
    rewrite !one_line_app, Hx, Q. cbn [andb].
    induction Hl as [|[k' y] o Hy _ IHl]; [reflexivity|]. cbn [print_otail snd] in *. rewrite !one_line_app, Hy, Q. cbn [andb]. apply IHl.
    inversion IH as [|? ? _ Hl']; subst. constructor; [exact Hx|]. now inversion Hl'.
Qed.
(** ** The record in the code *)
(** The record is read back from its debug comment when neither the marker nor the end of a comment stands
    in one of its strings. *)
Theorem record_from_comment : forall pre fc post, fc_u32 fc -> ~ Occurs marker pre ->
  (forall s, In s (record_strings fc) -> ~ Occurs marker s /\ ~ Occurs "*/" s) ->
  exists text, last_file_coverage (pre ++ block_comment (debug_comment fc) ++ post) = Some text /\
               from_str de_file_coverage text = Some fc.
Proof.
  intros pre fc post U Hpre H. exists (fc_text fc). split; [|now apply record_round_trip]. apply read_debug_comment.
  - discriminate.
  - apply print_one_line.
  - exact Hpre.
  - rewrite record_text_occurs by now left. intros (s & I & O). destruct (H s I). auto.
  - rewrite record_text_occurs by now right. intros (s & I & O). destruct (H s I). auto.
Qed.
(** Otherwise the comment ends before the record does, and the rest of the text is read as code. *)
Theorem comment_ends_early : forall fc s, In s (record_strings fc) -> Occurs "*/" s ->
  exists a b, block_comment (debug_comment fc) = "/*" ++ a ++ "*/" ++ b /\ b <> "" /\ ~ Occurs "*/" a.
Proof.
  intros fc s I O. assert (T : Occurs "*/" (fc_text fc)) by (apply record_text_occurs; [now right|now exists s]).
  assert (D : Occurs "*/" (debug_comment fc)).
  { apply (occurs_infix "*/" marker _ "") in T. now rewrite sapp_nil in T. }
  destruct (cut "*/" (debug_comment fc)) as [[a b]|] eqn:C.
  - exists a, (b ++ "*/"). unfold block_comment. pose proof (cut_sound _ _ _ _ C) as E. rewrite E. rewrite !sapp_assoc.
    split; [reflexivity|]. split; [destruct b; discriminate|]. apply (cut_least _ _ _ _ C). discriminate.
  - apply cut_none in C. contradiction.
Qed.
(** The record of an instrumented file without an input source map is read back from the generated code, if
    the path and the identifiers of the source do not contain the marker or the end of a comment. *)
Theorem produced_from_comment : forall e n path t items t' sc pre post, program_items t = Some items ->
  instrument e n path None t = Ok (t', sc) -> (sc_s sc <= u32_mod)%N -> (sc_f sc <= u32_mod)%N -> (sc_b sc <= u32_mod)%N ->
  ~ Occurs marker pre -> (forall s, In s (path :: idents t) -> ~ Occurs marker s /\ ~ Occurs "*/" s) ->
  exists text, last_file_coverage (pre ++ block_comment (debug_comment (sc_fc sc)) ++ post) = Some text /\
               from_str de_file_coverage text = Some (sc_fc sc).
Proof.
  intros e n path t items t' sc pre post Hi H Ls Lf Lb Hp Hs. apply record_from_comment; [|exact Hp|].
  - eapply produced_fits; eauto. discriminate.
  - pose proof (produced_record e n path None t items t' sc Hi H) as R. cbv zeta in R. destruct R as (_ & P & M & _).
    intros s I. unfold record_strings in I. rewrite P, M, app_nil_r in I. destruct I as [<-|I]; [apply Hs; now left|].
    apply in_map_iff in I as ([k f] & <- & I). cbn [snd].
    destruct (function_names e n path None t items t' sc k f Hi H I) as [E|[E|E]].
    + assert (A : forall c, has_char c "(anonymous_)" = false -> is_digit c = false -> has_char c (f_name f) = false).
      { intros c C D. rewrite E, !has_char_app. rewrite (no_digit c k D).
        change "(anonymous_)" with ("(anonymous_" ++ ")") in C. rewrite has_char_app in C. apply orb_false_iff in C as [-> ->]. reflexivity. }
      split; intros O.
      * apply (occurs_char ":") in O; [|reflexivity]. rewrite A in O; [discriminate|reflexivity|reflexivity].
      * apply (occurs_char "*") in O; [|reflexivity]. rewrite A in O; [discriminate|reflexivity|reflexivity].
    + rewrite E. split; intros O; [apply (occurs_char ":") in O|apply (occurs_char "*") in O]; try reflexivity; discriminate O.
    + apply Hs. now right.
Qed.
(** With an input source map that carries a source with a block comment, the comment ends inside the record,
    and what is read back is no record. *)
Theorem comment_lost_refuted : exists e ism t items t' sc text, program_items t = Some items /\
  instrument e 40 "f.js" (Some ism) t = Ok (t', sc) /\
  sm_sources_content ism = Some [Some "/* c */ f();"] /\
  last_file_coverage (block_comment (debug_comment (sc_fc sc))) = Some text /\ from_str de_file_coverage text = None.
Proof.
  exists plain_env, (mkSourceMap 3 None None ["a.js"] (Some [Some "/* c */ f();"]) [] ""), (module_ 1 20 []). do 4 eexists.
  split; [reflexivity|]. split; [vm_compute; reflexivity|]. split; [reflexivity|].
  split; [vm_compute; reflexivity|vm_compute; reflexivity].
Qed.
Example from_comment_ex :
  let code := ("f();" ++ String newline "g(); " ++
     block_comment (debug_comment (mkFC false "a*b/c.js" [(0%N, mkRange (mkLoc 1 0) (mkLoc 1 4))] [] [] [(0%N, 0%N)] [] [] None None)) ++ " " ++ ch1 newline)%string in
  exists text, last_file_coverage code = Some text /\ prefix "{""all"":false,""path"":""a*b/c.js""," text = true /\
  from_str de_file_coverage text = Some (mkFC false "a*b/c.js" [(0%N, mkRange (mkLoc 1 0) (mkLoc 1 4))] [] [] [(0%N, 0%N)] [] [] None None).
Proof. cbv zeta. eexists. split; [vm_compute; reflexivity|]. split; vm_compute; reflexivity. Qed.
