(** C21: the text of a string, character by character.

    serde_json 1.0.140 ser.rs [ESCAPE] and [format_escaped_str_contents]: the quote, the backslash and the 32 control characters
    are escaped, five of the latter by a letter and the others by four lower case hexadecimal digits.  All other bytes stand for
    themselves.  The text decides on the hash of the record (coverage_template/create_coverage_data_object.rs:427-432). *)
From Coq Require Import NArith String Ascii List.
Import ListNotations.
From Verif Require Import Json.
Local Transparent quoted.
Open Scope string_scope. Open Scope list_scope.

Definition escapes : list (ascii * string) :=
  [("000"%char, "\u0000"); ("001"%char, "\u0001"); ("002"%char, "\u0002"); ("003"%char, "\u0003"); ("004"%char, "\u0004"); ("005"%char, "\u0005");
   ("006"%char, "\u0006"); ("007"%char, "\u0007"); ("008"%char, "\b"); ("009"%char, "\t"); ("010"%char, "\n"); ("011"%char, "\u000b"); ("012"%char, "\f");
   ("013"%char, "\r"); ("014"%char, "\u000e"); ("015"%char, "\u000f"); ("016"%char, "\u0010"); ("017"%char, "\u0011"); ("018"%char, "\u0012");
   ("019"%char, "\u0013"); ("020"%char, "\u0014"); ("021"%char, "\u0015"); ("022"%char, "\u0016"); ("023"%char, "\u0017"); ("024"%char, "\u0018");
   ("025"%char, "\u0019"); ("026"%char, "\u001a"); ("027"%char, "\u001b"); ("028"%char, "\u001c"); ("029"%char, "\u001d"); ("030"%char, "\u001e");
   ("031"%char, "\u001f"); ("034"%char, "\"""); ("092"%char, "\\")].

(** A string is printed between quotes, its characters one by one: the listed ones as listed and all others as they are. *)
Theorem escape_table : forall s, exists l,
  print (JStr s) = String """" (String.concat "" l ++ """") /\
  Forall2 (fun c t => In (c, t) escapes \/ (~ In c (map fst escapes) /\ t = String c "")) (list_ascii_of_string s) l.
Proof.
  assert (C : forall c, In (c, escape_char c) escapes \/ (~ In c (map fst escapes) /\ escape_char c = String c "")).
  { intros c. destruct c as [[] [] [] [] [] [] [] []]; vm_compute;
      first [left; repeat (first [left; reflexivity|right]); fail|
             right; split; [intros H; repeat (destruct H as [H|H]; [discriminate|]); exact H|reflexivity]]. }
  intros s. exists (map escape_char (list_ascii_of_string s)). split.
  - assert (E : escape s = String.concat "" (map escape_char (list_ascii_of_string s))).
    { induction s as [|c s IH]; [reflexivity|]. cbn [escape list_ascii_of_string map]. rewrite IH.
      cbn [String.concat]. destruct (map escape_char (list_ascii_of_string s)); [|reflexivity]. apply sapp_nil. }
    rewrite <- E. reflexivity.
  - induction (list_ascii_of_string s) as [|c l IH]; constructor; [apply C|exact IH].
Qed.
Example escape_ex : print (JStr (String "027" (String "010" "a/é""\"))) = """\u001b\na/é\""\\""".
Proof. reflexivity. Qed.
