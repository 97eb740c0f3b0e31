(** Reading JSON text: the grammar of RFC 8259 as [serde_json::from_str] accepts it, a reader for it, and
    the agreement of the two.

    [serde_json] 1.0.140 (Cargo.lock) is a dependency; the reader follows its de.rs and read.rs.  Texts are
    byte strings.  A string token is kept as its list of units, because [serde_json] checks the pairing of
    surrogate escapes only when it needs the string, not when it skips an unknown member. *)
From Coq Require Import NArith String Ascii List Bool Lia PeanoNat DecimalString.
Import ListNotations.
From Verif Require Import Decimal Json.
Open Scope string_scope.

(** ** Tokens *)
(** A unit of a string token: a byte, or the code of a [\uXXXX] escape *)
Inductive sunit := UByte (c : ascii) | UHex (n : N).
(** A value; a number is [Some n] when its token is a plain non-negative integer *)
Inductive jv :=
| VNull | VBool (b : bool) | VNum (n : option N) | VStr (u : list sunit)
| VArr (l : list jv) | VObj (o : list (list sunit * jv)).

Definition is_ws (c : ascii) : bool :=
  match nat_of_ascii c with 32 | 10 | 9 | 13 => true | _ => false end%nat.
Fixpoint ws (s : string) : string :=
  match s with "" => "" | String c r => if is_ws c then ws r else s end.
Definition hex (c : ascii) : option N :=
  let n := N_of_ascii c in
  if ((48 <=? n) && (n <=? 57))%N then Some (n - 48)%N
  else if ((65 <=? n) && (n <=? 70))%N then Some (n - 55)%N
  else if ((97 <=? n) && (n <=? 102))%N then Some (n - 87)%N
  else None.
Definition hex4 (a b c d : ascii) : option N :=
  match hex a, hex b, hex c, hex d with
  | Some a, Some b, Some c, Some d => Some (((a * 16 + b) * 16 + c) * 16 + d)%N
  | _, _, _, _ => None
  end.
(** read.rs [parse_escape]: the one-letter escapes *)
Definition short (c : ascii) : option ascii :=
  match nat_of_ascii c with
  | 34 => Some dquote | 92 => Some backslash | 47 => Some "/"%char
  | 98 => Some (ascii_of_nat 8) | 102 => Some (ascii_of_nat 12) | 110 => Some (ascii_of_nat 10)
  | 114 => Some (ascii_of_nat 13) | 116 => Some (ascii_of_nat 9)
  | _ => None
  end%nat.
Definition ucons {A} (u : sunit) (o : option (list sunit * A)) : option (list sunit * A) :=
  match o with Some (us, r) => Some (u :: us, r) | None => None end.
(** The rest of a string token after its opening quote *)
Fixpoint lex_str (s : string) : option (list sunit * string) :=
  match s with
  | "" => None
  | String c r =>
      if Ascii.eqb c dquote then Some ([], r)
      else if Ascii.eqb c backslash then
        match r with
        | "" => None
        | String d r1 =>
            if Ascii.eqb d "u" then
              match r1 with
              | String x1 (String x2 (String x3 (String x4 r2))) =>
                  match hex4 x1 x2 x3 x4 with Some n => ucons (UHex n) (lex_str r2) | None => None end
              | _ => None
              end
            else match short d with Some e => ucons (UByte e) (lex_str r1) | None => None end
        end
      else if Nat.ltb (nat_of_ascii c) 32 then None
      else ucons (UByte c) (lex_str r)
  end.
Fixpoint digits (s : string) : string * string :=
  match s with
  | "" => ("", "")
  | String c r => if is_digit c then let (d, r') := digits r in (String c d, r') else ("", s)
  end.
Definition number_of (d : string) : option N := option_map N.of_uint (NilEmpty.uint_of_string d).
(** Digits of which there must be one *)
Definition digits1 (s : string) : option (string * string) :=
  match digits s with ("", _) => None | p => Some p end.
(** No leading zero *)
Definition int_ok (d : string) : bool :=
  match d with "" => false | String c "" => true | String c _ => negb (Ascii.eqb c "0") end.
Definition frac (s : string) : option (bool * string) :=
  match s with
  | String c r => if Ascii.eqb c "." then option_map (fun p => (true, snd p)) (digits1 r) else Some (false, s)
  | "" => Some (false, s)
  end.
Definition skip_sign (s : string) : string :=
  match s with String c r => if Ascii.eqb c "+" || Ascii.eqb c "-" then r else s | "" => s end.
Definition expo (s : string) : option (bool * string) :=
  match s with
  | String c r =>
      if Ascii.eqb c "e" || Ascii.eqb c "E" then option_map (fun p => (true, snd p)) (digits1 (skip_sign r))
      else Some (false, s)
  | "" => Some (false, s)
  end.
Definition unsigned (s : string) : option (option N * string) :=
  let (d, r) := digits s in
  if int_ok d then
    match frac r with
    | Some (f, r1) =>
        match expo r1 with
        | Some (e, r2) => Some (if f || e then None else number_of d, r2)
        | None => None
        end
    | None => None
    end
  else None.
Definition number (s : string) : option (option N * string) :=
  match s with
  | String c r => if Ascii.eqb c "-" then option_map (fun p => (None, snd p)) (unsigned r) else unsigned s
  | "" => None
  end.
Fixpoint strip (p s : string) : option string :=
  match p with
  | "" => Some s
  | String a p' => match s with String b s' => if Ascii.eqb a b then strip p' s' else None | "" => None end
  end.

(** ** The reader *)
Inductive pres (A : Type) := PVal (a : A) (rest : string) | PBad | PFuel.
Arguments PVal {A}. Arguments PBad {A}. Arguments PFuel {A}.
Definition pmap {A B} (f : A -> B) (p : pres A) : pres B :=
  match p with PVal a r => PVal (f a) r | PBad => PBad | PFuel => PFuel end.
Definition of_opt {A B} (f : A -> B) (o : option (A * string)) : pres B :=
  match o with Some (a, r) => PVal (f a) r | None => PBad end.
Definition lit (p : string) (v : jv) (s : string) : pres jv :=
  match strip p s with Some r => PVal v r | None => PBad end.

Fixpoint value (n : nat) (s : string) {struct n} : pres jv :=
  match n with
  | O => PFuel
  | S n =>
      match ws s with
      | "" => PBad
      | String c r =>
          if Ascii.eqb c "{" then
            match ws r with
            | "" => PBad
            | String d r' => if Ascii.eqb d "}" then PVal (VObj []) r' else pmap VObj (members n (String d r'))
            end
          else if Ascii.eqb c "[" then
            match ws r with
            | "" => PBad
            | String d r' => if Ascii.eqb d "]" then PVal (VArr []) r' else pmap VArr (elements n (String d r'))
            end
          else if Ascii.eqb c dquote then of_opt VStr (lex_str r)
          else if Ascii.eqb c "n" then lit "ull" VNull r
          else if Ascii.eqb c "t" then lit "rue" (VBool true) r
          else if Ascii.eqb c "f" then lit "alse" (VBool false) r
          else of_opt VNum (number (String c r))
      end
  end
with elements (n : nat) (s : string) {struct n} : pres (list jv) :=
  match n with
  | O => PFuel
  | S n =>
      match value n s with
      | PVal v r =>
          match ws r with
          | "" => PBad
          | String c r' =>
              if Ascii.eqb c "," then pmap (cons v) (elements n r')
              else if Ascii.eqb c "]" then PVal [v] r'
              else PBad
          end
      | PBad => PBad
      | PFuel => PFuel
      end
  end
with members (n : nat) (s : string) {struct n} : pres (list (list sunit * jv)) :=
  match n with
  | O => PFuel
  | S n =>
      match ws s with
      | "" => PBad
      | String q r =>
          if Ascii.eqb q dquote then
            match lex_str r with
            | Some (k, r1) =>
                match ws r1 with
                | "" => PBad
                | String c r2 =>
                    if Ascii.eqb c ":" then
                      match value n r2 with
                      | PVal v r3 =>
                          match ws r3 with
                          | "" => PBad
                          | String e r4 =>
                              if Ascii.eqb e "," then pmap (cons (k, v)) (members n r4)
                              else if Ascii.eqb e "}" then PVal [(k, v)] r4
                              else PBad
                          end
                      | PBad => PBad
                      | PFuel => PFuel
                      end
                    else PBad
                end
            | None => PBad
            end
          else PBad
      end
  end.
Definition enough (s : string) : nat := S (2 * String.length s).
(** [serde_json::from_str]: one value and nothing but white space after it *)
Definition parse (s : string) : option jv :=
  match value (enough s) s with
  | PVal v r => match ws r with "" => Some v | _ => None end
  | _ => None
  end.

(** ** The grammar *)
Inductive Ws : string -> Prop :=
| Ws_nil : Ws ""
| Ws_cons : forall c s, In c [" "; "010"; "009"; "013"]%char -> Ws s -> Ws (String c s).
Definition Hex (c : ascii) (n : N) : Prop :=
  exists k, n = N.of_nat k /\ (get k "0123456789abcdef" = Some c \/ get k "0123456789ABCDEF" = Some c).
Inductive Chars : list sunit -> string -> Prop :=
| C_nil : Chars [] ""
| C_byte : forall c us s, (32 <= nat_of_ascii c)%nat -> c <> dquote -> c <> backslash -> Chars us s ->
    Chars (UByte c :: us) (String c s)
| C_short : forall x c us s,
    In (x, nat_of_ascii c) [("""", 34); ("\", 92); ("/", 47); ("b", 8); ("f", 12); ("n", 10); ("r", 13); ("t", 9)]%char%nat ->
    Chars us s -> Chars (UByte c :: us) (String backslash (String x s))
| C_hex : forall a b c d na nb nc nd us s, Hex a na -> Hex b nb -> Hex c nc -> Hex d nd -> Chars us s ->
    Chars (UHex (4096 * na + 256 * nb + 16 * nc + nd)%N :: us) (String backslash ("u" ++ String a (String b (String c (String d s))))).
Inductive Digits : string -> Prop :=
| D_one : forall c, is_digit c = true -> Digits (ch1 c)
| D_more : forall c s, is_digit c = true -> Digits s -> Digits (String c s).
Inductive Int : string -> Prop :=
| I_zero : Int "0"
| I_pos : forall c s, is_digit c = true -> c <> "0"%char -> (s = "" \/ Digits s) -> Int (String c s).
Inductive Frac : bool -> string -> Prop :=
| F_none : Frac false ""
| F_some : forall s, Digits s -> Frac true ("." ++ s).
Inductive Expo : bool -> string -> Prop :=
| E_none : Expo false ""
| E_some : forall e g s, In e ["e"; "E"] -> In g [""; "+"; "-"] -> Digits s -> Expo true (e ++ g ++ s).
Inductive Number : option N -> string -> Prop :=
| N_int : forall n, Number (Some n) (dec n)
| N_neg : forall d f e b1 b2, Int d -> Frac b1 f -> Expo b2 e -> Number None ("-" ++ d ++ f ++ e)
| N_real : forall d f e b1 b2, Int d -> Frac b1 f -> Expo b2 e -> b1 || b2 = true -> Number None (d ++ f ++ e).
Inductive Value : jv -> string -> Prop :=
| J_null : Value VNull "null"
| J_true : Value (VBool true) "true"
| J_false : Value (VBool false) "false"
| J_num : forall n s, Number n s -> Value (VNum n) s
| J_str : forall us s, Chars us s -> Value (VStr us) (String dquote (s ++ ch1 dquote))
| J_arr0 : forall w, Ws w -> Value (VArr []) ("[" ++ w ++ "]")
| J_arr : forall l s, Elements l s -> Value (VArr l) ("[" ++ s ++ "]")
| J_obj0 : forall w, Ws w -> Value (VObj []) ("{" ++ w ++ "}")
| J_obj : forall o s, Members o s -> Value (VObj o) ("{" ++ s ++ "}")
with Elements : list jv -> string -> Prop :=
| L_one : forall v w1 s w2, Ws w1 -> Value v s -> Ws w2 -> Elements [v] (w1 ++ s ++ w2)
| L_more : forall v l w1 s w2 t, Ws w1 -> Value v s -> Ws w2 -> Elements l t -> Elements (v :: l) (w1 ++ s ++ w2 ++ "," ++ t)
with Members : list (list sunit * jv) -> string -> Prop :=
| B_one : forall k v w1 ks w2 w3 s w4, Ws w1 -> Chars k ks -> Ws w2 -> Ws w3 -> Value v s -> Ws w4 ->
    Members [(k, v)] (w1 ++ String dquote (ks ++ String dquote (w2 ++ ":" ++ w3 ++ s ++ w4)))
| B_more : forall k v o w1 ks w2 w3 s w4 t, Ws w1 -> Chars k ks -> Ws w2 -> Ws w3 -> Value v s -> Ws w4 -> Members o t ->
    Members ((k, v) :: o) (w1 ++ String dquote (ks ++ String dquote (w2 ++ ":" ++ w3 ++ s ++ w4 ++ "," ++ t))).
Inductive Text : jv -> string -> Prop :=
| T_text : forall v w1 s w2, Ws w1 -> Value v s -> Ws w2 -> Text v (w1 ++ s ++ w2).

(** ** Lengths *)
Lemma len_app : forall a b, String.length (a ++ b) = (String.length a + String.length b)%nat.
Proof. induction a as [|c a IH]; intros b; [reflexivity|]. cbn. now rewrite IH. Qed.

(** ** Sound: what is read is in the grammar *)
Lemma is_ws_in : forall c, is_ws c = true <-> In c [" "; "010"; "009"; "013"]%char.
Proof.
  intros c. split.
  - destruct c as [[] [] [] [] [] [] [] []]; cbv; intros H; try discriminate H; auto.
  - intros [<-|[<-|[<-|[<-|[]]]]]; reflexivity.
Qed.
Lemma ws_split : forall s, exists w, Ws w /\ s = w ++ ws s.
Proof.
  induction s as [|c s (w & W & E)]; [exists ""; split; [constructor|reflexivity]|].
  cbn [ws]. destruct (is_ws c) eqn:D.
  - exists (String c w). split; [constructor; [now apply is_ws_in|exact W]|]. cbn [append]. now rewrite E at 1.
  - exists "". split; [constructor|reflexivity].
Qed.
Lemma ws_app : forall w s, Ws w -> ws (w ++ s) = ws s.
Proof. intros w s H. induction H as [|c w D _ IH]; [reflexivity|]. cbn [append ws]. apply is_ws_in in D. now rewrite D. Qed.
Lemma ws_all : forall s, ws s = "" <-> Ws s.
Proof.
  intros s. split.
  - intros H. destruct (ws_split s) as (w & W & E). rewrite H, sapp_nil in E. now subst.
  - intros H. rewrite <- (sapp_nil s). now rewrite ws_app.
Qed.
Lemma hex_in : forall c n, hex c = Some n <-> Hex c n.
Proof.
  intros c n. split.
  - intros H. exists (N.to_nat n). rewrite Nnat.N2Nat.id. split; [reflexivity|].
    destruct c as [[] [] [] [] [] [] [] []]; cbv in H; try discriminate H; injection H as <-; cbv; auto.
  - intros (k & -> & H). do 16 (destruct k as [|k]; [destruct H as [H|H]; injection H as <-; reflexivity|]).
    destruct H as [H|H]; cbn in H; discriminate H.
Qed.
Lemma hex4_in : forall a b c d n, hex4 a b c d = Some n <->
  exists na nb nc nd, Hex a na /\ Hex b nb /\ Hex c nc /\ Hex d nd /\ n = (4096 * na + 256 * nb + 16 * nc + nd)%N.
Proof.
  intros a b c d n. unfold hex4. split.
  - destruct (hex a) as [na|] eqn:A; [|discriminate]. destruct (hex b) as [nb|] eqn:B; [|discriminate].
    destruct (hex c) as [nc|] eqn:C; [|discriminate]. destruct (hex d) as [nd|] eqn:D; [|discriminate].
    intros H. injection H as <-. apply hex_in in A, B, C, D. exists na, nb, nc, nd. repeat (split; [assumption|]). lia.
  - intros (na & nb & nc & nd & A & B & C & D & ->). apply hex_in in A, B, C, D. rewrite A, B, C, D. f_equal. lia.
Qed.
Lemma C_hex4 : forall a b c d n us s, hex4 a b c d = Some n -> Chars us s ->
  Chars (UHex n :: us) (String backslash ("u" ++ String a (String b (String c (String d s))))).
Proof. intros a b c d n us s H C. apply hex4_in in H as (na & nb & nc & nd & A1 & A2 & A3 & A4 & ->). now constructor. Qed.
Lemma short_in : forall x c, short x = Some c <->
  In (x, nat_of_ascii c) [("""", 34); ("\", 92); ("/", 47); ("b", 8); ("f", 12); ("n", 10); ("r", 13); ("t", 9)]%char%nat.
Proof.
  intros x c. split.
  - destruct x as [[] [] [] [] [] [] [] []]; cbv [short nat_of_ascii]; cbn; intros H; try discriminate H;
      injection H as <-; cbv; auto 20.
  - intros H.
    assert (K : forall m, nat_of_ascii c = m -> c = ascii_of_nat m) by (intros m <-; now rewrite ascii_nat_embedding).
    repeat (destruct H as [H|H]; [injection H as <- H; symmetry in H; apply K in H; subst c; reflexivity|]). destruct H.
Qed.
Lemma lex_sound : forall m s us r, (String.length s <= m)%nat -> lex_str s = Some (us, r) ->
  exists t, Chars us t /\ s = t ++ String dquote r.
Proof.
  induction m as [|m IH]; intros s us r L H.
  { destruct s; [discriminate|cbn in L; lia]. }
  assert (K : forall u s' us r, (String.length s' <= m)%nat -> ucons u (lex_str s') = Some (us, r) ->
    exists us' t, us = u :: us' /\ Chars us' t /\ s' = t ++ String dquote r).
  { intros u s' us' r' L' H'. unfold ucons in H'. destruct (lex_str s') as [[us1 r1]|] eqn:E; [|discriminate].
    injection H' as <- <-. apply IH in E as (t & C & ->); [|exact L']. eauto. }
  destruct s as [|c s]; [discriminate|]. cbn [lex_str] in H.
  destruct (Ascii.eqb_spec c dquote) as [->|N1].
  { injection H as <- <-. exists "". split; [constructor|reflexivity]. }
  destruct (Ascii.eqb_spec c backslash) as [->|N2].
  - destruct s as [|d s]; [discriminate|].
    destruct (Ascii.eqb_spec d "u"%char) as [->|N3].
    + destruct s as [|x1 [|x2 [|x3 [|x4 s]]]]; try discriminate H.
      destruct (hex4 x1 x2 x3 x4) as [n|] eqn:X; [|discriminate].
      apply K in H as (us' & t & -> & C & ->); [|cbn in L; lia].
      exists (String backslash ("u" ++ String x1 (String x2 (String x3 (String x4 t))))).
      apply hex4_in in X as (na & nb & nc & nd & A1 & A2 & A3 & A4 & ->).
      split; [now constructor|reflexivity].
    + destruct (short d) as [e|] eqn:X; [|discriminate].
      apply K in H as (us' & t & -> & C & ->); [|cbn in L; lia].
      exists (String backslash (String d t)). split; [|reflexivity].
      constructor; [now apply short_in|exact C].
  - destruct (Nat.ltb_spec (nat_of_ascii c) 32) as [|N3]; [discriminate|].
    apply K in H as (us' & t & -> & C & ->); [|cbn in L; lia].
    exists (String c t). split; [now constructor|reflexivity].
Qed.
Lemma digits_split : forall s d r, digits s = (d, r) -> s = d ++ r /\ (d = "" \/ Digits d) /\ delim r.
Proof.
  induction s as [|c s IH]; intros d r H; cbn [digits] in H.
  { injection H as <- <-. repeat split. now left. }
  destruct (is_digit c) eqn:D.
  - destruct (digits s) as [d' r'] eqn:E. injection H as <- <-. destruct (IH d' r' eq_refl) as (-> & A & B).
    split; [reflexivity|]. split; [|exact B]. right. destruct A as [->|A]; [now constructor|now constructor].
  - injection H as <- <-. repeat split; [now left|exact D].
Qed.
Lemma digits1_split : forall s d r, digits1 s = Some (d, r) -> s = d ++ r /\ Digits d /\ delim r.
Proof.
  intros s d r H. unfold digits1 in H. destruct (digits s) as [d' r'] eqn:E.
  assert (E' : d' <> "" /\ (d', r') = (d, r)) by (destruct d'; [discriminate|injection H as <- <-; split; [discriminate|reflexivity]]).
  destruct E' as [N E']. injection E' as -> ->. apply digits_split in E as (A & [B|B] & C); [contradiction|auto].
Qed.
Lemma int_ok_Int : forall d, (d = "" \/ Digits d) -> int_ok d = true -> Int d.
Proof.
  intros d [->|H] K; [discriminate|]. destruct H as [c H|c s H HS]; cbn [int_ok ch1] in K.
  - destruct (Ascii.eqb_spec c "0"%char) as [->|N]; [constructor|]. constructor; auto.
  - constructor; [exact H| |now right]. intros ->. destruct HS; discriminate K.
Qed.
Lemma frac_sound : forall s b r, frac s = Some (b, r) -> exists f, Frac b f /\ s = f ++ r.
Proof.
  intros [|c s] b r H; cbn [frac] in H; [injection H as <- <-; exists ""; split; [constructor|reflexivity]|].
  destruct (Ascii.eqb_spec c "."%char) as [->|N].
  - destruct (digits1 s) as [[d r']|] eqn:E; [|discriminate]. injection H as <- <-.
    apply digits1_split in E as (-> & D & _). exists ("." ++ d). split; [now constructor|reflexivity].
  - injection H as <- <-. exists "". split; [constructor|reflexivity].
Qed.
Lemma skip_sign_split : forall s, exists g, In g [""; "+"; "-"] /\ s = g ++ skip_sign s.
Proof.
  intros [|c s]; [exists ""; cbn; auto|]. cbn [skip_sign].
  destruct (Ascii.eqb_spec c "+"%char) as [->|]; [exists "+"; cbn; auto|].
  destruct (Ascii.eqb_spec c "-"%char) as [->|]; [exists "-"; cbn; auto|]. exists "". cbn. auto.
Qed.
Lemma expo_sound : forall s b r, expo s = Some (b, r) -> exists e, Expo b e /\ s = e ++ r.
Proof.
  intros [|c s] b r H; cbn [expo] in H; [injection H as <- <-; exists ""; split; [constructor|reflexivity]|].
  destruct (Ascii.eqb c "e" || Ascii.eqb c "E") eqn:D.
  - destruct (digits1 (skip_sign s)) as [[d r']|] eqn:E; [|discriminate]. injection H as <- <-.
    destruct (skip_sign_split s) as (g & G & Es).
    apply digits1_split in E as (E & D' & _). rewrite E in Es. subst s.
    exists (ch1 c ++ g ++ d). split.
    + constructor; auto. apply orb_true_iff in D as [D|D]; apply Ascii.eqb_eq in D; subst; cbn; auto.
    + cbn [append ch1]. now rewrite !sapp_assoc.
  - injection H as <- <-. exists "". split; [constructor|reflexivity].
Qed.
Lemma digits_uint : forall d, Digits d -> exists u, NilEmpty.uint_of_string d = Some u /\ NilEmpty.string_of_uint u = d.
Proof.
  intros d H.
  assert (C : forall c u, is_digit c = true -> exists u', uint_of_char c (Some u) = Some u' /\
     NilEmpty.string_of_uint u' = String c (NilEmpty.string_of_uint u)).
  { intros [[] [] [] [] [] [] [] []] u H0; cbv in H0; try discriminate H0; cbv [uint_of_char]; eexists; split; reflexivity. }
  induction H as [c D|c s D _ (u & E & S)].
  - destruct (C c Decimal.Nil D) as (u & E & S). exists u. cbn [ch1 NilEmpty.uint_of_string]. now rewrite E, S.
  - destruct (C c u D) as (u' & E' & S'). exists u'. cbn [NilEmpty.uint_of_string]. now rewrite E, E', S', S.
Qed.
Lemma int_dec : forall d, Int d -> exists n, number_of d = Some n /\ d = dec n.
Proof.
  intros d H. destruct H as [|c s D N HS]; [exists 0%N; split; reflexivity|].
  assert (DS : Digits (String c s)) by (destruct HS as [->|HS]; now constructor).
  destruct (digits_uint _ DS) as (u & E & ES). exists (N.of_uint u). unfold number_of. rewrite E. split; [reflexivity|].
  unfold dec. rewrite DecimalN.Unsigned.to_of. unfold Decimal.unorm.
  destruct u; cbn in ES; try discriminate ES; injection ES as <- ES; try (cbn [Decimal.nzhead]; cbn; now rewrite ?ES); congruence.
Qed.
Lemma unsigned_sound : forall s n r, unsigned s = Some (n, r) ->
  exists d f e b1 b2, Int d /\ Frac b1 f /\ Expo b2 e /\ s = d ++ f ++ e ++ r /\ n = if b1 || b2 then None else number_of d.
Proof.
  intros s n r H. unfold unsigned in H. destruct (digits s) as [d r0] eqn:E.
  destruct (int_ok d) eqn:I; [|discriminate]. apply digits_split in E as (-> & D & _). apply int_ok_Int in I; [|exact D].
  destruct (frac r0) as [[b1 r1]|] eqn:F; [|discriminate]. apply frac_sound in F as (f & F & ->).
  destruct (expo r1) as [[b2 r2]|] eqn:X; [|discriminate]. apply expo_sound in X as (e & X & ->).
  injection H as <- <-. exists d, f, e, b1, b2. auto.
Qed.
Lemma number_sound : forall s n r, number s = Some (n, r) -> exists t, Number n t /\ s = t ++ r.
Proof.
  intros [|c s] n r H; [discriminate|]. cbn [number] in H. destruct (Ascii.eqb_spec c "-"%char) as [->|N].
  - destruct (unsigned s) as [[n' r']|] eqn:E; [|discriminate]. injection H as <- <-.
    apply unsigned_sound in E as (d & f & e & b1 & b2 & I & F & X & -> & _).
    exists ("-" ++ d ++ f ++ e). split; [now apply N_neg with b1 b2|]. cbn [append]. now rewrite !sapp_assoc.
  - apply unsigned_sound in H as (d & f & e & b1 & b2 & I & F & X & -> & ->).
    exists (d ++ f ++ e). split; [|now rewrite !sapp_assoc].
    destruct (b1 || b2) eqn:B; [now apply N_real with b1 b2|].
    apply orb_false_iff in B as [-> ->]. inversion F; subst. inversion X; subst.
    destruct (int_dec d I) as (n & -> & E). rewrite !sapp_nil. rewrite E. constructor.
Qed.
Lemma strip_app : forall p s r, strip p s = Some r <-> s = p ++ r.
Proof.
  induction p as [|a p IH]; intros s r; cbn [strip append].
  - split; [intros H; now injection H|now intros ->].
  - destruct s as [|b s]; [split; discriminate|]. destruct (Ascii.eqb_spec a b) as [->|N].
    + rewrite IH. split; [now intros ->|intros H; now injection H].
    + split; [discriminate|]. intros H. injection H as <- _. contradiction.
Qed.

Lemma reader_sound : forall n,
  (forall s v r, value n s = PVal v r -> exists w t, Ws w /\ Value v t /\ s = w ++ t ++ r) /\
  (forall s l r, elements n s = PVal l r -> exists t, Elements l t /\ s = t ++ "]" ++ r) /\
  (forall s o r, members n s = PVal o r -> exists t, Members o t /\ s = t ++ "}" ++ r).
Proof.
  induction n as [|n (IHv & IHe & IHm)].
  { repeat split; discriminate. }
  split; [|split].
  - intros s v r H. cbn [value] in H. destruct (ws_split s) as (w & W & E).
    destruct (ws s) as [|c s1]; [discriminate|].
    enough (exists t, Value v t /\ String c s1 = t ++ r) as (t & Vt & Et).
    { exists w, t. rewrite <- Et. auto. }
    clear s E w W.
    destruct (Ascii.eqb_spec c "{"%char) as [->|N1].
    { destruct (ws_split s1) as (w & W & E). destruct (ws s1) as [|d s2]; [discriminate|].
      destruct (Ascii.eqb_spec d "}"%char) as [->|N].
      - injection H as <- <-. exists ("{" ++ w ++ "}"). split; [now constructor|]. cbn [append]. rewrite E at 1.
        now rewrite sapp_assoc.
      - destruct (members n (String d s2)) as [o r'| |] eqn:M; try discriminate. injection H as <- <-.
        apply IHm in M as (t & M & Et).
        assert (M' : Members o (w ++ t)).
        { clear - M W. assert (A : forall a b, Ws a -> Ws b -> Ws (a ++ b)).
          { intros a b Ha Hb. induction Ha; [exact Hb|]. now constructor. }
          destruct M; rewrite <- sapp_assoc; constructor; auto. }
        exists ("{" ++ (w ++ t) ++ "}"). split; [now constructor|]. cbn [append]. rewrite E at 1. rewrite Et.
        now rewrite !sapp_assoc. }
    destruct (Ascii.eqb_spec c "["%char) as [->|N2].
    { destruct (ws_split s1) as (w & W & E). destruct (ws s1) as [|d s2]; [discriminate|].
      destruct (Ascii.eqb_spec d "]"%char) as [->|N].
      - injection H as <- <-. exists ("[" ++ w ++ "]"). split; [now constructor|]. cbn [append]. rewrite E at 1.
        now rewrite sapp_assoc.
      - destruct (elements n (String d s2)) as [o r'| |] eqn:M; try discriminate. injection H as <- <-.
        apply IHe in M as (t & M & Et).
        assert (M' : Elements o (w ++ t)).
        { clear - M W. assert (A : forall a b, Ws a -> Ws b -> Ws (a ++ b)).
          { intros a b Ha Hb. induction Ha; [exact Hb|]. now constructor. }
          destruct M; rewrite <- sapp_assoc; constructor; auto. }
        exists ("[" ++ (w ++ t) ++ "]"). split; [now constructor|]. cbn [append]. rewrite E at 1. rewrite Et.
        now rewrite !sapp_assoc. }
    destruct (Ascii.eqb_spec c dquote) as [->|N3].
    { unfold of_opt in H. destruct (lex_str s1) as [[us r']|] eqn:L; [|discriminate]. injection H as <- <-.
      apply (lex_sound _ _ _ _ (le_n _)) in L as (t & C & ->).
      exists (String dquote (t ++ ch1 dquote)). split; [now constructor|]. cbn [append ch1]. now rewrite sapp_assoc. }
    destruct (Ascii.eqb_spec c "n"%char) as [->|N4].
    { unfold lit in H. destruct (strip "ull" s1) as [r'|] eqn:E; [|discriminate]. apply strip_app in E as ->.
      injection H as <- <-. exists "null". split; [constructor|reflexivity]. }
    destruct (Ascii.eqb_spec c "t"%char) as [->|N5].
    { unfold lit in H. destruct (strip "rue" s1) as [r'|] eqn:E; [|discriminate]. apply strip_app in E as ->.
      injection H as <- <-. exists "true". split; [constructor|reflexivity]. }
    destruct (Ascii.eqb_spec c "f"%char) as [->|N6].
    { unfold lit in H. destruct (strip "alse" s1) as [r'|] eqn:E; [|discriminate]. apply strip_app in E as ->.
      injection H as <- <-. exists "false". split; [constructor|reflexivity]. }
    unfold of_opt in H. destruct (number (String c s1)) as [[m r']|] eqn:E; [|discriminate]. injection H as <- <-.
    apply number_sound in E as (t & Nt & ->). exists t. split; [now constructor|reflexivity].
  - intros s l r H. cbn [elements] in H. destruct (value n s) as [v r1| |] eqn:E; try discriminate.
    apply IHv in E as (w1 & t & W1 & Vt & ->).
    destruct (ws_split r1) as (w2 & W2 & E). destruct (ws r1) as [|c r2]; [discriminate|].
    destruct (Ascii.eqb_spec c ","%char) as [->|N].
    + destruct (elements n r2) as [l' r3| |] eqn:L; try discriminate. injection H as <- <-.
      apply IHe in L as (t2 & L & ->). exists (w1 ++ t ++ w2 ++ "," ++ t2). split; [now constructor|].
      rewrite E. rewrite !sapp_assoc. cbn [append]. now rewrite ?sapp_assoc.
    + destruct (Ascii.eqb_spec c "]"%char) as [->|]; [|discriminate]. injection H as <- <-.
      exists (w1 ++ t ++ w2). split; [now constructor|]. rewrite E. now rewrite !sapp_assoc.
  - intros s o r H. cbn [members] in H. destruct (ws_split s) as (w1 & W1 & E1).
    destruct (ws s) as [|q s1]; [discriminate|]. destruct (Ascii.eqb_spec q dquote) as [->|]; [|discriminate].
    destruct (lex_str s1) as [[k s2]|] eqn:L; [|discriminate]. apply (lex_sound _ _ _ _ (le_n _)) in L as (ks & C & ->).
    destruct (ws_split s2) as (w2 & W2 & E2). destruct (ws s2) as [|c s3]; [discriminate|].
    destruct (Ascii.eqb_spec c ":"%char) as [->|]; [|discriminate].
    destruct (value n s3) as [v s4| |] eqn:E; try discriminate. apply IHv in E as (w3 & t & W3 & Vt & ->).
    destruct (ws_split s4) as (w4 & W4 & E4). destruct (ws s4) as [|e s5]; [discriminate|].
    destruct (Ascii.eqb_spec e ","%char) as [->|N].
    + destruct (members n s5) as [o' r3| |] eqn:M; try discriminate. injection H as <- <-.
      apply IHm in M as (t2 & M & ->).
      exists (w1 ++ String dquote (ks ++ String dquote (w2 ++ ":" ++ w3 ++ t ++ w4 ++ "," ++ t2))).
      split; [now constructor|]. rewrite E1, E2, E4. rewrite !sapp_assoc. cbn [append]. rewrite !sapp_assoc. cbn [append].
      rewrite !sapp_assoc. cbn [append]. now rewrite !sapp_assoc.
    + destruct (Ascii.eqb_spec e "}"%char) as [->|]; [|discriminate]. injection H as <- <-.
      exists (w1 ++ String dquote (ks ++ String dquote (w2 ++ ":" ++ w3 ++ t ++ w4))).
      split; [now constructor|]. rewrite E1, E2, E4. rewrite !sapp_assoc. cbn [append]. rewrite !sapp_assoc. cbn [append].
      rewrite !sapp_assoc. cbn [append]. now rewrite !sapp_assoc.
Qed.

(** ** Complete: whatever is in the grammar is read *)
Definition stop (r : string) : Prop :=
  match r with "" => True | String c _ => is_digit c = false /\ c <> "."%char /\ c <> "e"%char /\ c <> "E"%char end.
Lemma lex_complete : forall us t r, Chars us t -> lex_str (t ++ String dquote r) = Some (us, r).
Proof.
  intros us t r H. induction H as [|c us s A B C _ IH|x c us s I _ IH|a b c d na nb nc nd us s A1 A2 A3 A4 _ IH].
  - reflexivity.
  - cbn [append lex_str]. apply Ascii.eqb_neq in B, C. rewrite B, C.
    destruct (Nat.ltb_spec (nat_of_ascii c) 32); [lia|]. now rewrite IH.
  - cbn [append lex_str]. apply short_in in I. cbn [Ascii.eqb]. change (Ascii.eqb backslash dquote) with false.
    change (Ascii.eqb backslash backslash) with true. cbv iota.
    destruct (Ascii.eqb_spec x "u"%char) as [->|]; [discriminate I|]. now rewrite I, IH.
  - cbn [append lex_str]. change (Ascii.eqb backslash dquote) with false.
    change (Ascii.eqb backslash backslash) with true. cbv iota. change (Ascii.eqb "u" "u") with true. cbv iota.
    rewrite (proj2 (hex4_in a b c d _)) by (exists na, nb, nc, nd; auto). now rewrite IH.
Qed.
Lemma digits_app : forall d r, (d = "" \/ Digits d) -> delim r -> digits (d ++ r) = (d, r).
Proof.
  assert (Z : forall r, delim r -> digits r = ("", r)).
  { intros [|c r] H; [reflexivity|]. cbn in *. now rewrite H. }
  intros d r [->|H] K; [now apply Z|]. induction H as [c D|c s D _ IH]; cbn [ch1 append digits]; rewrite D.
  - now rewrite Z.
  - now rewrite IH.
Qed.
Lemma digits1_app : forall d r, Digits d -> delim r -> digits1 (d ++ r) = Some (d, r).
Proof.
  intros d r H K. unfold digits1. rewrite digits_app; auto. now destruct H.
Qed.
Lemma stop_delim : forall r, stop r -> delim r.
Proof. intros [|c r]; [auto|]. cbn. tauto. Qed.
Lemma expo_complete : forall b e r, Expo b e -> stop r -> expo (e ++ r) = Some (b, r).
Proof.
  intros b e r H K. destruct H as [|e g s He Hg D].
  - cbn [append]. destruct r as [|c r]; [reflexivity|]. cbn [expo]. destruct K as (_ & _ & A & B).
    apply Ascii.eqb_neq in A, B. now rewrite A, B.
  - assert (Hs : skip_sign ((g ++ s) ++ r) = s ++ r).
    { destruct Hg as [<-|[<-|[<-|[]]]]; try reflexivity. cbn [append]. destruct D as [c D|c s D HS]; cbn [ch1 append skip_sign].
      - destruct (Ascii.eqb_spec c "+"%char) as [->|]; [discriminate|]. destruct (Ascii.eqb_spec c "-"%char) as [->|]; [discriminate|]. reflexivity.
      - destruct (Ascii.eqb_spec c "+"%char) as [->|]; [discriminate|]. destruct (Ascii.eqb_spec c "-"%char) as [->|]; [discriminate|]. reflexivity. }
    apply stop_delim in K.
    destruct He as [<-|[<-|[]]]; rewrite sapp_assoc; cbn [append]; unfold expo;
      [change (Ascii.eqb "e" "e" || Ascii.eqb "e" "E") with true|change (Ascii.eqb "E" "e" || Ascii.eqb "E" "E") with true];
      cbv iota; rewrite Hs, digits1_app; auto.
Qed.
Lemma expo_frac_stop : forall b e r, Expo b e -> stop r ->
  match e ++ r with "" => True | String c _ => is_digit c = false /\ c <> "."%char end.
Proof.
  intros b e r H K. destruct H as [|e g s He Hg D].
  - cbn [append]. destruct r; [exact I|]. cbn in K. tauto.
  - destruct He as [<-|[<-|[]]]; cbn [append]; split; (reflexivity || discriminate).
Qed.
Lemma frac_complete : forall b f r, Frac b f ->
  match r with "" => True | String c _ => is_digit c = false /\ c <> "."%char end ->
  frac (f ++ r) = Some (b, r) /\ delim (f ++ r).
Proof.
  intros b f r H K. destruct H as [|s D].
  - cbn [append]. destruct r as [|c r]; [split; [reflexivity|exact I]|]. destruct K as [K1 K2]. split; [|exact K1].
    cbn [frac]. apply Ascii.eqb_neq in K2. now rewrite K2.
  - split; [|reflexivity]. cbn [append frac]. change (Ascii.eqb "." ".") with true. cbv iota.
    rewrite digits1_app; auto. destruct r as [|c r]; [exact I|]. now destruct K.
Qed.
Lemma int_ok_complete : forall d, Int d -> (d = "" \/ Digits d) /\ int_ok d = true.
Proof.
  intros d H. destruct H as [|c s D N HS]; [split; [right; now constructor|reflexivity]|].
  split; [right; destruct HS as [->|HS]; now constructor|].
  cbn [int_ok]. apply Ascii.eqb_neq in N. rewrite N. now destruct s.
Qed.
Lemma unsigned_complete : forall d f e b1 b2 r, Int d -> Frac b1 f -> Expo b2 e -> stop r ->
  unsigned ((d ++ f ++ e) ++ r) = Some (if b1 || b2 then None else number_of d, r).
Proof.
  intros d f e b1 b2 r D F E K. unfold unsigned. rewrite !sapp_assoc.
  destruct (int_ok_complete d D) as [A B].
  destruct (frac_complete b1 f (e ++ r) F (expo_frac_stop _ _ _ E K)) as [G L].
  rewrite (digits_app d _ A L), B, G, (expo_complete _ _ _ E K). reflexivity.
Qed.
Lemma dec_Int : forall n, Int (dec n).
Proof.
  intros n. pose proof (dec_digits n) as D. pose proof (dec_nonempty n) as E.
  assert (Z : int_ok (dec n) = true).
  { unfold dec in *. rewrite <- (DecimalN.Unsigned.of_to n) in E |- *. rewrite DecimalN.Unsigned.to_of in E |- *.
    unfold Decimal.unorm in *. remember (Decimal.nzhead (N.to_uint n)) as u eqn:U.
    destruct u; try reflexivity; try (cbn; now destruct (NilEmpty.string_of_uint u)).
    exfalso. clear - U. induction (N.to_uint n); cbn in U; try discriminate U. now apply IHu0. }
  apply int_ok_Int; [|exact Z]. destruct (dec n) as [|c s]; [now left|]. right. clear Z E. cbn [all_chars] in D.
  apply andb_prop in D as [Dc D]. revert c Dc. induction s as [|d s IH]; intros c Dc; [now constructor|].
  cbn [all_chars] in D. apply andb_prop in D as [Dd D]. constructor; [exact Dc|]. now apply IH.
Qed.
Lemma number_of_dec : forall n, number_of (dec n) = Some n.
Proof. intros n. unfold number_of, dec. rewrite NilEmpty.usu. cbn [option_map]. now rewrite DecimalN.Unsigned.of_to. Qed.
Lemma Int_first : forall d, Int d -> exists c s, d = String c s /\ is_digit c = true.
Proof. intros d H. destruct H; eauto. Qed.
Lemma Number_first : forall n s, Number n s -> exists c s', s = String c s' /\ (is_digit c = true \/ c = "-"%char).
Proof.
  intros n s H. destruct H as [n|d f e b1 b2 D _ _|d f e b1 b2 D _ _ _].
  - destruct (Int_first _ (dec_Int n)) as (c & s & -> & D). eauto.
  - cbn [append]. eauto.
  - destruct (Int_first _ D) as (c & s & -> & Dc). cbn [append]. eauto.
Qed.
Lemma number_complete : forall n s r, Number n s -> stop r -> number (s ++ r) = Some (n, r).
Proof.
  assert (U : forall s x, (exists c s', s = String c s' /\ is_digit c = true) -> unsigned s = x -> number s = x).
  { intros s x (c & s' & -> & D) <-. cbn [number]. destruct (Ascii.eqb_spec c "-"%char) as [->|]; [discriminate|reflexivity]. }
  intros n s r H K. destruct H as [n|d f e b1 b2 D F E|d f e b1 b2 D F E B].
  - destruct (Int_first _ (dec_Int n)) as (c & s & Ed & Dc). apply U.
    + rewrite Ed. cbn [append]. eauto.
    + pose proof (unsigned_complete _ _ _ _ _ r (dec_Int n) F_none E_none K) as Q.
      rewrite !sapp_nil in Q. rewrite Q. cbn [orb]. now rewrite number_of_dec.
  - change (("-" ++ d ++ f ++ e) ++ r) with (String "-" ((d ++ f ++ e) ++ r)). cbn [number].
    change (Ascii.eqb "-" "-") with true. cbv iota. now rewrite (unsigned_complete d f e b1 b2).
  - destruct (Int_first _ D) as (c & s & Ed & Dc). apply U.
    + rewrite Ed. cbn [append]. eauto.
    + rewrite (unsigned_complete d f e b1 b2); auto. now rewrite B.
Qed.
(** The first character of a value *)
Lemma Value_first : forall v s, Value v s -> exists c s', s = String c s' /\ is_ws c = false /\ c <> "]"%char /\ c <> ","%char.
Proof.
  intros v s H. destruct H as [| | |n s H| | | | |]; try (eexists; eexists; repeat split; (reflexivity || discriminate)).
  destruct (Number_first n s H) as (c & s' & -> & [D| ->]).
  - exists c, s'. repeat split; destruct c as [[] [] [] [] [] [] [] []]; cbv in D; try discriminate D; (reflexivity || discriminate).
  - exists "-"%char, s'. repeat split; (reflexivity || discriminate).
Qed.
Lemma ws_idem : forall s, ws (ws s) = ws s.
Proof. induction s as [|c s IH]; [reflexivity|]. cbn [ws]. destruct (is_ws c) eqn:E; [exact IH|]. cbn [ws]. now rewrite E. Qed.
Lemma value_ws : forall n s, value n (ws s) = value n s.
Proof. intros [|n] s; [reflexivity|]. cbn [value]. now rewrite ws_idem. Qed.
Lemma elements_ws : forall n s, elements n (ws s) = elements n s.
Proof. intros [|n] s; [reflexivity|]. cbn [elements]. now rewrite value_ws. Qed.
Lemma members_ws : forall n s, members n (ws s) = members n s.
Proof. intros [|n] s; [reflexivity|]. cbn [members]. now rewrite ws_idem. Qed.
Lemma ws_value : forall v w s r, Ws w -> Value v s -> exists c s', ws (w ++ s ++ r) = String c s' /\ String c s' = s ++ r /\ c <> "]"%char.
Proof.
  intros v w s r W H. destruct (Value_first v s H) as (c & s' & -> & A & B & _). rewrite ws_app by exact W.
  exists c, (s' ++ r). cbn [append ws]. rewrite A. auto.
Qed.
Scheme Value_ind2 := Minimality for Value Sort Prop
with Elements_ind2 := Minimality for Elements Sort Prop
with Members_ind2 := Minimality for Members Sort Prop.
Combined Scheme Value_mut from Value_ind2, Elements_ind2, Members_ind2.
Lemma stop_sep : forall w c r, Ws w -> In c [","; "]"; "}"]%char -> stop (w ++ String c r).
Proof.
  intros w c r W H. destruct W as [|d w D _].
  - destruct H as [<-|[<-|[<-|[]]]]; cbn; repeat split; discriminate.
  - destruct D as [<-|[<-|[<-|[<-|[]]]]]; cbn; repeat split; discriminate.
Qed.
Lemma reader_complete :
  (forall v s, Value v s -> forall n w r, Ws w -> stop r -> (2 * String.length s < n)%nat -> value n (w ++ s ++ r) = PVal v r) /\
  (forall l s, Elements l s -> forall n r, (2 * String.length s + 1 < n)%nat -> elements n (s ++ "]" ++ r) = PVal l r) /\
  (forall o s, Members o s -> forall n r, (2 * String.length s + 1 < n)%nat -> members n (s ++ "}" ++ r) = PVal o r).
Proof.
  apply Value_mut.
  - intros [|n] w r W K L; [lia|]. cbn [value]. rewrite ws_app by exact W. reflexivity.
  - intros [|n] w r W K L; [lia|]. cbn [value]. rewrite ws_app by exact W. reflexivity.
  - intros [|n] w r W K L; [lia|]. cbn [value]. rewrite ws_app by exact W. reflexivity.
  - intros m s H [|n] w r W K L; [lia|]. cbn [value]. rewrite ws_app by exact W.
    pose proof (number_complete m s r H K) as Q.
    destruct (Value_first _ _ (J_num _ _ H)) as (c & s' & E & A & _). destruct (Number_first m s H) as (c' & s'' & E' & D).
    rewrite E in E'. injection E' as <- <-. subst s. cbn [append ws] in Q |- *. rewrite A.
    assert (NE : forall x, (is_digit x = false) -> x <> "-"%char -> Ascii.eqb c x = false).
    { intros x X1 X2. apply Ascii.eqb_neq. intros ->. destruct D as [D|D]; congruence. }
    rewrite !NE by (reflexivity || discriminate). now rewrite Q.
  - intros us s C [|n] w r W K L; [lia|]. cbn [value]. rewrite ws_app by exact W. cbn [append ws].
    change (is_ws dquote) with false. cbv iota. cbn [Ascii.eqb Bool.eqb dquote]. rewrite sapp_assoc. cbn [append ch1].
    now rewrite (lex_complete us s r C).
  - intros w0 W0 [|n] w r W K L; [lia|]. cbn [value]. rewrite ws_app by exact W. cbn [append ws].
    change (is_ws "[") with false. cbv iota. cbn [Ascii.eqb Bool.eqb]. rewrite sapp_assoc, ws_app by exact W0. reflexivity.
  - intros l s E IH [|n] w r W K L; [lia|]. cbn [value]. rewrite ws_app by exact W. cbn [append ws].
    change (is_ws "[") with false. cbv iota. cbn [Ascii.eqb Bool.eqb]. rewrite sapp_assoc.
    assert (F : exists c s', ws (s ++ "]" ++ r) = String c s' /\ c <> "]"%char).
    { clear IH L. destruct E as [v w1 s w2 W1 V W2|v l w1 s w2 t W1 V W2 E].
      - rewrite !sapp_assoc. destruct (ws_value v w1 s (w2 ++ "]" ++ r) W1 V) as (c & s' & Q & _ & N). eauto.
      - rewrite !sapp_assoc. destruct (ws_value v w1 s (w2 ++ "," ++ t ++ "]" ++ r) W1 V) as (c & s' & Q & _ & N).
        exists c, s'. split; [|exact N]. rewrite <- Q. cbn [append]. now rewrite ?sapp_assoc. }
    destruct F as (c & s' & Q & N). rewrite Q. apply Ascii.eqb_neq in N. rewrite N.
    rewrite <- Q, elements_ws. rewrite IH; [reflexivity|]. cbn in L. rewrite len_app in L. cbn in L. lia.
  - intros w0 W0 [|n] w r W K L; [lia|]. cbn [value]. rewrite ws_app by exact W. cbn [append ws].
    change (is_ws "{") with false. cbv iota. cbn [Ascii.eqb Bool.eqb]. rewrite sapp_assoc, ws_app by exact W0. reflexivity.
  - intros o s E IH [|n] w r W K L; [lia|]. cbn [value]. rewrite ws_app by exact W. cbn [append ws].
    change (is_ws "{") with false. cbv iota. cbn [Ascii.eqb Bool.eqb]. rewrite sapp_assoc.
    assert (F : exists s', ws (s ++ "}" ++ r) = String dquote s').
    { clear IH L. destruct E; rewrite !sapp_assoc; rewrite ws_app by assumption; cbn [append ws];
        change (is_ws dquote) with false; cbv iota; eauto. }
    destruct F as (s' & Q). rewrite Q. change (Ascii.eqb dquote "}") with false. cbv iota.
    rewrite <- Q, members_ws. rewrite IH; [reflexivity|]. cbn in L. rewrite len_app in L. cbn in L. lia.
  - intros v w1 s w2 W1 V IH W2 [|n] r L; [lia|]. cbn [elements]. rewrite !len_app in L. rewrite !sapp_assoc.
    rewrite IH; [|exact W1| |lia].
    + rewrite ws_app by exact W2. reflexivity.
    + cbn [append]. apply stop_sep; [exact W2|cbn; auto].
  - intros v l w1 s w2 t W1 V IH W2 E IHe [|n] r L; [lia|]. cbn [elements]. rewrite !len_app in L. cbn in L. rewrite !sapp_assoc.
    rewrite IH; [|exact W1| |lia].
    + rewrite ws_app by exact W2. cbn [append ws]. change (is_ws ",") with false. cbv iota.
      change (Ascii.eqb "," ",") with true. cbv iota.
      destruct (Value_first v s V) as (c & s' & -> & _). cbn in L.
      change (String "]" r) with ("]" ++ r). rewrite IHe; [reflexivity|lia].
    + cbn [append]. apply stop_sep; [exact W2|cbn; auto].
  - intros k v w1 ks w2 w3 s w4 W1 C W2 W3 V IH W4 [|n] r L; [lia|]. cbn [members]. rewrite !len_app in L. cbn in L.
    rewrite !len_app in L. cbn in L. rewrite !len_app in L. cbn in L. rewrite !len_app in L.
    rewrite !sapp_assoc, ws_app by exact W1. cbn [append ws]. change (is_ws dquote) with false. cbv iota.
    change (Ascii.eqb dquote dquote) with true. cbv iota. rewrite sapp_assoc. cbn [append]. rewrite (lex_complete k) by exact C.
    rewrite sapp_assoc, ws_app by exact W2. cbn [append ws]. change (is_ws ":") with false. cbv iota.
    change (Ascii.eqb ":" ":") with true. cbv iota. rewrite !sapp_assoc. rewrite IH; [|exact W3| |lia].
    + rewrite ws_app by exact W4. reflexivity.
    + apply stop_sep; [exact W4|cbn; auto].
  - intros k v o w1 ks w2 w3 s w4 t W1 C W2 W3 V IH W4 M IHm [|n] r L; [lia|]. cbn [members]. rewrite !len_app in L. cbn in L.
    rewrite !len_app in L. cbn in L. rewrite !len_app in L. cbn in L. rewrite !len_app in L. cbn in L.
    rewrite !sapp_assoc, ws_app by exact W1. cbn [append ws]. change (is_ws dquote) with false. cbv iota.
    change (Ascii.eqb dquote dquote) with true. cbv iota. rewrite sapp_assoc. cbn [append]. rewrite (lex_complete k) by exact C.
    rewrite sapp_assoc, ws_app by exact W2. cbn [append ws]. change (is_ws ":") with false. cbv iota.
    change (Ascii.eqb ":" ":") with true. cbv iota. rewrite !sapp_assoc. rewrite IH; [|exact W3| |lia].
    + rewrite ws_app by exact W4. cbn [append ws]. change (is_ws ",") with false. cbv iota.
      change (Ascii.eqb "," ",") with true. cbv iota. change (String "}" r) with ("}" ++ r). rewrite IHm; [reflexivity|lia].
    + cbn [append]. apply stop_sep; [exact W4|cbn; auto].
Qed.

(** The reader never runs out of fuel. *)
Lemma lex_shorter : forall s us r, lex_str s = Some (us, r) -> (String.length r < String.length s)%nat.
Proof.
  intros s us r H. apply (lex_sound _ _ _ _ (le_n _)) in H as (t & _ & ->). rewrite len_app. cbn. lia.
Qed.
Lemma ws_length : forall s, (String.length (ws s) <= String.length s)%nat.
Proof. induction s as [|c s IH]; [auto|]. cbn [ws]. destruct (is_ws c); cbn; lia. Qed.
Lemma value_shorter : forall n s v r, value n s = PVal v r -> (String.length r < String.length s)%nat.
Proof.
  intros n s v r H. apply (proj1 (reader_sound n)) in H as (w & t & _ & V & ->).
  destruct (Value_first v t V) as (c & t' & -> & _). rewrite !len_app. cbn. lia.
Qed.
Lemma reader_fuel : forall n,
  (forall s, (2 * String.length s < n)%nat -> value n s <> PFuel) /\
  (forall s, (2 * String.length s + 1 < n)%nat -> elements n s <> PFuel) /\
  (forall s, (2 * String.length s + 1 < n)%nat -> members n s <> PFuel).
Proof.
  induction n as [|n (IHv & IHe & IHm)]; [repeat split; intros; lia|].
  assert (PM : forall A B (f : A -> B) p, p <> PFuel -> pmap f p <> PFuel) by (intros A B f [] H; cbn; congruence).
  split; [|split].
  - intros s L. cbn [value]. pose proof (ws_length s) as LW. destruct (ws s) as [|c s1]; [discriminate|]. cbn in LW.
    pose proof (ws_length s1) as LW1.
    destruct (Ascii.eqb c "{").
    { destruct (ws s1) as [|d s2]; [discriminate|]. destruct (Ascii.eqb d "}"); [discriminate|]. apply PM, IHm. lia. }
    destruct (Ascii.eqb c "[").
    { destruct (ws s1) as [|d s2]; [discriminate|]. destruct (Ascii.eqb d "]"); [discriminate|]. apply PM, IHe. lia. }
    destruct (Ascii.eqb c dquote); [unfold of_opt; now destruct (lex_str s1) as [[]|]|].
    destruct (Ascii.eqb c "n"); [unfold lit; now destruct (strip _ _)|].
    destruct (Ascii.eqb c "t"); [unfold lit; now destruct (strip _ _)|].
    destruct (Ascii.eqb c "f"); [unfold lit; now destruct (strip _ _)|].
    unfold of_opt. now destruct (number _) as [[]|].
  - intros s L. cbn [elements]. destruct (value n s) as [v r| |] eqn:E; [|discriminate|].
    + apply value_shorter in E. pose proof (ws_length r) as LW. destruct (ws r) as [|c r']; [discriminate|]. cbn in LW.
      destruct (Ascii.eqb c ","); [apply PM, IHe; lia|]. now destruct (Ascii.eqb c "]").
    + exfalso. revert E. apply IHv. lia.
  - intros s L. cbn [members]. pose proof (ws_length s) as LW. destruct (ws s) as [|q s1]; [discriminate|]. cbn in LW.
    destruct (Ascii.eqb q dquote); [|discriminate]. destruct (lex_str s1) as [[k s2]|] eqn:LX; [|discriminate].
    apply lex_shorter in LX. pose proof (ws_length s2) as LW2. destruct (ws s2) as [|c s3]; [discriminate|]. cbn in LW2.
    destruct (Ascii.eqb c ":"); [|discriminate]. destruct (value n s3) as [v s4| |] eqn:E; [|discriminate|].
    + apply value_shorter in E. pose proof (ws_length s4) as LW4. destruct (ws s4) as [|e s5]; [discriminate|]. cbn in LW4.
      destruct (Ascii.eqb e ","); [apply PM, IHm; lia|]. now destruct (Ascii.eqb e "}").
    + exfalso. revert E. apply IHv. lia.
Qed.
Theorem parse_fuel : forall s, value (enough s) s <> PFuel.
Proof. intros s. apply (proj1 (reader_fuel _)). unfold enough. lia. Qed.

(** The reader accepts exactly the texts of the grammar, with the grammar's value. *)
Theorem parse_grammar : forall s v, parse s = Some v <-> Text v s.
Proof.
  intros s v. unfold parse. split.
  - destruct (value (enough s) s) as [v' r| |] eqn:E; try discriminate. destruct (ws r) eqn:W; [|discriminate].
    intros H. injection H as ->. apply (proj1 (reader_sound _)) in E as (w & t & W1 & V & ->). apply ws_all in W. now constructor.
  - intros [v' w1 t w2 W1 V W2]. rewrite (proj1 reader_complete v' t V _ w1 w2 W1).
    + apply ws_all in W2. now rewrite W2.
    + destruct W2 as [|c w2 D _]; [exact I|]. destruct D as [<-|[<-|[<-|[<-|[]]]]]; cbn; repeat split; discriminate.
    + unfold enough. rewrite !len_app. lia.
Qed.
Theorem text_unique : forall s v1 v2, Text v1 s -> Text v2 s -> v1 = v2.
Proof. intros s v1 v2 H1 H2. apply parse_grammar in H1, H2. congruence. Qed.
