(** JSON values, the compact printer of [serde_json::to_string] and its injectivity.

    [serde_json] is a dependency; the printer follows its documented compact format:
    no white space, strings escaped with the short escapes where they exist and
    [\u00XX] for other control characters, all other bytes verbatim. *)
From Coq Require Import NArith String Ascii List Bool Lia.
Import ListNotations.
From Verif Require Import Decimal.
Open Scope string_scope.

Inductive json :=
| JNull | JBool (b : bool) | JNum (n : N) | JStr (s : string)
| JArr (l : list json) | JObj (o : list (string * json)).

Fixpoint json_ind' (P : json -> Prop)
  (hnull : P JNull) (hbool : forall b, P (JBool b)) (hnum : forall n, P (JNum n)) (hstr : forall s, P (JStr s))
  (harr : forall l, Forall P l -> P (JArr l))
  (hobj : forall o, Forall (fun kv => P (snd kv)) o -> P (JObj o)) (j : json) {struct j} : P j :=
  match j with
  | JNull => hnull | JBool b => hbool b | JNum n => hnum n | JStr s => hstr s
  | JArr l => harr l ((fix go (l : list json) : Forall P l :=
      match l with
      | [] => Forall_nil _
      | x :: l' => Forall_cons x (json_ind' P hnull hbool hnum hstr harr hobj x) (go l')
      end) l)
  | JObj o => hobj o ((fix go (o : list (string * json)) : Forall (fun kv => P (snd kv)) o :=
      match o with
      | [] => Forall_nil _
      | kv :: o' => Forall_cons kv (json_ind' P hnull hbool hnum hstr harr hobj (snd kv)) (go o')
      end) o)
  end.

Definition dquote : ascii := "034".
Definition backslash : ascii := "092".
Definition ch1 (c : ascii) : string := String c EmptyString.
Definition hexdigit (n : nat) : ascii := ascii_of_nat (if Nat.ltb n 10 then 48 + n else 87 + n).
(** serde_json ser.rs [ESCAPE]/[format_escaped_str_contents] *)
Definition escape_char (c : ascii) : string :=
  match nat_of_ascii c with
  | 8 => String backslash "b" | 9 => String backslash "t" | 10 => String backslash "n"
  | 12 => String backslash "f" | 13 => String backslash "r"
  | 34 => String backslash (ch1 dquote) | 92 => String backslash (ch1 backslash)
  | n => if Nat.ltb n 32
         then String backslash ("u00" ++ String (hexdigit (Nat.div n 16)) (ch1 (hexdigit (Nat.modulo n 16))))
         else ch1 c
  end%nat.
Fixpoint escape (s : string) : string :=
  match s with EmptyString => "" | String c s' => escape_char c ++ escape s' end.
Definition quoted (s : string) : string := String dquote (escape s ++ ch1 dquote).

Fixpoint print (j : json) : string :=
  match j with
  | JNull => "null"
  | JBool b => if b then "true" else "false"
  | JNum n => dec n
  | JStr s => quoted s
  | JArr l =>
      match l with
      | [] => "[]"
      | x :: l' => "[" ++ print x ++ (fix tail (l : list json) : string :=
          match l with [] => "]" | y :: l' => "," ++ print y ++ tail l' end) l'
      end
  | JObj o =>
      match o with
      | [] => "{}"
      | (k, x) :: o' => "{" ++ quoted k ++ ":" ++ print x ++ (fix tail (o : list (string * json)) : string :=
          match o with [] => "}" | (k, y) :: o' => "," ++ quoted k ++ ":" ++ print y ++ tail o' end) o'
      end
  end.
Fixpoint print_tail (l : list json) : string :=
  match l with [] => "]" | y :: l' => "," ++ print y ++ print_tail l' end.
Fixpoint print_otail (o : list (string * json)) : string :=
  match o with [] => "}" | (k, y) :: o' => "," ++ quoted k ++ ":" ++ print y ++ print_otail o' end.
Lemma print_arr : forall x l, print (JArr (x :: l)) = "[" ++ print x ++ print_tail l.
Proof. reflexivity. Qed.
Lemma print_obj : forall k x o, print (JObj ((k, x) :: o)) = "{" ++ quoted k ++ ":" ++ print x ++ print_otail o.
Proof. reflexivity. Qed.

Lemma sapp_assoc : forall a b c : string, (a ++ b) ++ c = a ++ b ++ c.
Proof. induction a as [|x a IH]; intros; [reflexivity|]. cbn [append]. now rewrite IH. Qed.
Lemma sapp_nil : forall a : string, a ++ "" = a.
Proof. induction a as [|x a IH]; [reflexivity|]. cbn [append]. now rewrite IH. Qed.

(** ** Strings *)
(** One escape sequence is read back unambiguously. *)
Definition unhex (c : ascii) : nat :=
  let n := nat_of_ascii c in if Nat.ltb n 58 then n - 48 else n - 87.
Definition unescape1 (s : string) : option (ascii * string) :=
  match s with
  | EmptyString => None
  | String c r =>
      if Ascii.eqb c backslash then
        match r with
        | String d r' =>
            match nat_of_ascii d with
            | 98 => Some (ascii_of_nat 8, r') | 116 => Some (ascii_of_nat 9, r')
            | 110 => Some (ascii_of_nat 10, r') | 102 => Some (ascii_of_nat 12, r')
            | 114 => Some (ascii_of_nat 13, r')
            | 34 => Some (dquote, r') | 92 => Some (backslash, r')
            | 117 => match r' with
                     | String _ (String _ (String a (String b r''))) =>
                         Some (ascii_of_nat (16 * unhex a + unhex b), r'')
                     | _ => None
                     end
            | _ => None
            end%nat
        | EmptyString => None
        end
      else if Ascii.eqb c dquote then None
      else Some (c, r)
  end.
Lemma unescape1_escape : forall c r, unescape1 (escape_char c ++ r) = Some (c, r).
Proof. intros [[] [] [] [] [] [] [] []] r; reflexivity. Qed.
Lemma unescape1_quote : forall r, unescape1 (String dquote r) = None.
Proof. reflexivity. Qed.
Lemma escape_prefix : forall a b r1 r2,
  escape a ++ String dquote r1 = escape b ++ String dquote r2 -> a = b /\ r1 = r2.
Proof.
  induction a as [|c a IH]; intros [|d b] r1 r2 H.
  - injection H as H. now split.
  - cbn [escape] in H. rewrite sapp_assoc in H. apply (f_equal unescape1) in H.
    rewrite unescape1_escape in H. discriminate.
  - cbn [escape] in H. rewrite sapp_assoc in H. apply (f_equal unescape1) in H.
    rewrite unescape1_escape in H. discriminate.
  - cbn [escape] in H. rewrite !sapp_assoc in H. apply (f_equal unescape1) in H.
    rewrite !unescape1_escape in H. injection H as H1 H2. subst d.
    apply IH in H2 as [-> ->]. now split.
Qed.
Lemma quoted_prefix : forall a b r1 r2, quoted a ++ r1 = quoted b ++ r2 -> a = b /\ r1 = r2.
Proof.
  intros a b r1 r2 H. unfold quoted in H. cbn [append] in H. injection H as H.
  rewrite !sapp_assoc in H. cbn [append ch1] in H. now apply escape_prefix in H.
Qed.

Lemma tail_eq : forall c a b, String c a = String c b -> a = b.
Proof. intros c a b H. now injection H. Qed.
Global Opaque quoted.

(** ** Values *)
Definition delim (r : string) : Prop := match r with EmptyString => True | String c _ => is_digit c = false end.
Lemma dec_prefix : forall a b r1 r2, delim r1 -> delim r2 -> dec a ++ r1 = dec b ++ r2 -> a = b /\ r1 = r2.
Proof.
  intros a b r1 r2 H1 H2 H.
  assert (K : dec a = dec b /\ r1 = r2).
  { pose proof (dec_digits a) as Da. pose proof (dec_digits b) as Db. revert Da Db H.
    generalize (dec a) (dec b). clear a b. induction s as [|c s IH]; intros [|d t] Da Db H.
    - now split.
    - cbn in H. subst r1. cbn in H1, Db. apply andb_prop in Db as [Db _]. congruence.
    - cbn in H. subst r2. cbn in H2, Da. apply andb_prop in Da as [Da _]. congruence.
    - cbn [append all_chars] in *. injection H as -> H. apply andb_prop in Da as [_ Da].
      apply andb_prop in Db as [_ Db]. destruct (IH t Da Db H) as [-> ->]. now split. }
  destruct K as [K1 K2]. split; [now apply dec_inj|exact K2].
Qed.
(** The first character tells the constructor. *)
Inductive tag := TNull | TTrue | TFalse | TNum | TStr | TArr | TObj | TOther.
Definition tag_of (s : string) : tag :=
  match s with
  | EmptyString => TOther
  | String c _ =>
      if is_digit c then TNum else
      match nat_of_ascii c with
      | 110 => TNull | 116 => TTrue | 102 => TFalse | 34 => TStr | 91 => TArr | 123 => TObj | _ => TOther
      end%nat
  end.
Definition jtag (j : json) : tag :=
  match j with
  | JNull => TNull | JBool true => TTrue | JBool false => TFalse | JNum _ => TNum | JStr _ => TStr
  | JArr _ => TArr | JObj _ => TObj
  end.
Lemma tag_quoted : forall s r, tag_of (quoted s ++ r) = TStr.
Proof. Transparent quoted. reflexivity. Opaque quoted. Qed.
Lemma tag_print : forall j r, tag_of (print j ++ r) = jtag j.
Proof.
  intros [|[]|n|s|[|x l]|[|[k x] o]] r; try reflexivity; try apply tag_quoted.
  cbn [print jtag]. pose proof (dec_digits n) as D. pose proof (dec_nonempty n) as E.
  destruct (dec n) as [|c s]; [contradiction|]. cbn in *. apply andb_prop in D as [D _]. now rewrite D.
Qed.
Lemma delim_tail : forall l r, delim (print_tail l ++ r).
Proof. intros [|x l] r; reflexivity. Qed.
Lemma delim_otail : forall l r, delim (print_otail l ++ r).
Proof. intros [|[k x] l] r; reflexivity. Qed.

Definition prefix_ok (j1 : json) : Prop := forall j2 r1 r2, delim r1 -> delim r2 ->
  print j1 ++ r1 = print j2 ++ r2 -> j1 = j2 /\ r1 = r2.
Lemma tail_prefix : forall l1, Forall prefix_ok l1 -> forall l2 r1 r2,
  print_tail l1 ++ r1 = print_tail l2 ++ r2 -> l1 = l2 /\ r1 = r2.
Proof.
  intros l1 H. induction H as [|x l1 Hx _ IH]; intros [|y l2] r1 r2 E; try discriminate.
  - cbn in E. injection E as ->. now split.
  - cbn [print_tail append] in E. apply tail_eq in E. rewrite !sapp_assoc in E.
    apply Hx in E as [-> E]; try apply delim_tail. apply IH in E as [-> ->]. now split.
Qed.
Lemma otail_prefix : forall l1, Forall (fun kv => prefix_ok (snd kv)) l1 -> forall l2 r1 r2,
  print_otail l1 ++ r1 = print_otail l2 ++ r2 -> l1 = l2 /\ r1 = r2.
Proof.
  intros l1 H. induction H as [|[k x] l1 Hx _ IH]; intros [|[k' y] l2] r1 r2 E; try discriminate.
  - cbn in E. injection E as ->. now split.
  - cbn [print_otail append] in E. apply tail_eq in E. rewrite !sapp_assoc in E.
    apply quoted_prefix in E as [-> E]. cbn [append] in E. apply tail_eq in E. rewrite !sapp_assoc in E.
    apply Hx in E as [E1 E]; try apply delim_otail. cbn in E1. subst y.
    apply IH in E as [-> ->]. now split.
Qed.
Theorem print_prefix : forall j, prefix_ok j.
Proof.
  intros j. induction j as [|b|n|s|l IH|o IH] using json_ind'; intros j2 r1 r2 D1 D2 E;
    pose proof (f_equal tag_of E) as T; rewrite !tag_print in T.
  - destruct j2 as [|[]| | | |]; try discriminate T. injection E as ->. now split.
  - destruct b; destruct j2 as [|[]| | | |]; try discriminate T; injection E as ->; now split.
  - destruct j2 as [|[]|m| | |]; try discriminate T. cbn [print] in E.
    apply dec_prefix in E as [-> ->]; auto.
  - destruct j2 as [|[]| |t| |]; try discriminate T. cbn [print] in E.
    apply quoted_prefix in E as [-> ->]. now split.
  - destruct j2 as [|[]| | |l2|]; try discriminate T.
    destruct l as [|x l], l2 as [|y l2].
    + injection E as ->. now split.
    + rewrite print_arr in E. cbn [print append] in E. apply tail_eq in E. rewrite sapp_assoc in E.
      apply (f_equal tag_of) in E. rewrite tag_print in E. destruct y as [|[]| | | |]; discriminate E.
    + rewrite print_arr in E. cbn [print append] in E. apply tail_eq in E. rewrite sapp_assoc in E.
      apply (f_equal tag_of) in E. rewrite tag_print in E. destruct x as [|[]| | | |]; discriminate E.
    + rewrite !print_arr in E. cbn [append] in E. apply tail_eq in E. rewrite !sapp_assoc in E.
      inversion IH as [|? ? Hx Hl]; subst.
      apply Hx in E as [-> E]; try apply delim_tail. apply tail_prefix in E as [-> ->]; auto.
  - destruct j2 as [|[]| | | |o2]; try discriminate T.
    destruct o as [|[k x] o], o2 as [|[k' y] o2].
    + injection E as ->. now split.
    + rewrite print_obj in E. cbn [print append] in E. apply tail_eq in E. rewrite sapp_assoc in E. apply (f_equal tag_of) in E. rewrite tag_quoted in E. discriminate E.
    + rewrite print_obj in E. cbn [print append] in E. apply tail_eq in E. rewrite sapp_assoc in E. apply (f_equal tag_of) in E. rewrite tag_quoted in E. discriminate E.
    + rewrite !print_obj in E. cbn [append] in E. apply tail_eq in E. rewrite !sapp_assoc in E.
      apply quoted_prefix in E as [-> E]. cbn [append] in E. apply tail_eq in E. rewrite !sapp_assoc in E.
      inversion IH as [|? ? Hx Hl]; subst. cbn in Hx.
      apply Hx in E as [-> E]; try apply delim_otail. apply otail_prefix in E as [-> ->]; auto.
Qed.
Theorem print_injective : forall j1 j2, print j1 = print j2 -> j1 = j2.
Proof.
  intros j1 j2 H. apply (print_prefix j1 j2 "" ""); [exact I|exact I|]. now rewrite !sapp_nil.
Qed.
Example print_ex : print (JObj [("a", JArr [JNum 10; JNull; JBool false]); ("b", JStr (String dquote (ch1 "010")))])
  = "{""a"":[10,null,false],""b"":""\""\n""}".
Proof. reflexivity. Qed.
