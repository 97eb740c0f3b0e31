(** Model of packages/swc-coverage-instrument/src/utils: ignore hints in comments
    (hint_comments.rs) and location lookup (lookup_range.rs).

    Comment texts are lists of Unicode scalar values.  The [regex] crate is a
    dependency; the part of it the two patterns use is modelled as a backtracking
    matcher over the patterns' syntax trees. *)
From Coq Require Import NArith String Ascii List Bool Lia PeanoNat.
Import ListNotations.
From Verif Require Import Base Oxide.
Open Scope N_scope.

Definition text := list N.

Fixpoint chars (s : string) : text :=
  match s with
  | EmptyString => []
  | String c s' => N_of_ascii c :: chars s'
  end.

Definition between (lo hi c : N) : bool := (lo <=? c) && (c <=? hi).

(** Unicode White_Space, the class [\s] of the regex crate and of [str::trim] *)
Definition is_space (c : N) : bool :=
  between 9 13 c || (c =? 32) || (c =? 133) || (c =? 160) || (c =? 5760) ||
  between 8192 8202 c || between 8232 8233 c || (c =? 8239) || (c =? 8287) || (c =? 12288).

(** [\w]: Alphabetic, Mark, Decimal_Number, Connector_Punctuation, Join_Control.  The
    ASCII part is spelled out; [word_hi] stands for the Unicode tables above it. *)
Definition is_word (word_hi : N -> bool) (c : N) : bool :=
  if c <? 128 then between 48 57 c || between 65 90 c || between 97 122 c || (c =? 95)
  else word_hi c.

(** ** Regular expressions *)
Inductive re :=
| RClass (p : N -> bool)      (* one character of a class *)
| RSeq (a b : re)
| RAlt (a b : re)
| RStar (p : N -> bool)       (* greedy repetition of a class *)
| RGroup (a : re)             (* the capture group 1 *)
| RBol                        (* ^ *)
| REol.                       (* $ (no multi-line flag: end of text) *)

Fixpoint RLit (t : text) (last : re) : re :=
  match t with
  | [] => last
  | c :: t' => RSeq (RClass (N.eqb c)) (RLit t' last)
  end.
Definition RWord (t : text) : re :=
  match rev t with
  | [] => RStar (fun _ => false)
  | c :: t' => RLit (rev t') (RClass (N.eqb c))
  end.
Definition RPlus (p : N -> bool) : re := RSeq (RClass p) (RStar p).

(** Matcher state: position in the text, the rest of the text, the group. *)
Definition mstate : Type := nat * text * option text.

Fixpoint star_from (p : N -> bool) (i : nat) (s : text) (g : option text) : list mstate :=
  match s with
  | c :: s' => if p c then star_from p (S i) s' g ++ [(i, s, g)] else [(i, s, g)]
  | [] => [(i, s, g)]
  end.

(** All matches in order of preference (leftmost-first, greedy). *)
Fixpoint rmatch (r : re) (st : mstate) : list mstate :=
  match r, st with
  | RClass p, (i, c :: s, g) => if p c then [(S i, s, g)] else []
  | RClass p, (_, [], _) => []
  | RSeq a b, _ => flat_map (rmatch b) (rmatch a st)
  | RAlt a b, _ => rmatch a st ++ rmatch b st
  | RStar p, (i, s, g) => star_from p i s g
  | RGroup a, (i, s, g) =>
      map (fun st' => match st' with (i', s', _) => (i', s', Some (firstn (i' - i) s)) end)
          (rmatch a (i, s, g))
  | RBol, (i, s, g) => match i with O => [st] | _ => [] end
  | REol, (i, s, g) => match s with [] => [st] | _ => [] end
  end.

(** Unanchored search: the first start position with a match. *)
Fixpoint rsearch (r : re) (i : nat) (s : text) : option mstate :=
  match rmatch r (i, s, None) with
  | st :: _ => Some st
  | [] => match s with [] => None | _ :: s' => rsearch r (S i) s' end
  end.

Section Patterns.
Variable word_hi : N -> bool.

(** [^\s*istanbul\s+ignore\s+(..)(\W|$)]; the second group is not read by the code *)
Definition hint_re (kinds : re) : re :=
  RSeq RBol (RSeq (RStar is_space) (RSeq (RWord (chars "istanbul")) (RSeq (RPlus is_space)
    (RSeq (RWord (chars "ignore")) (RSeq (RPlus is_space)
      (RSeq (RGroup kinds) (RAlt (RClass (fun c => negb (is_word word_hi c))) REol))))))).

(** hint_comments.rs:15-16 *)
Definition COMMENT_FILE_REGEX : re := hint_re (RWord (chars "file")).
(** hint_comments.rs:19-20 *)
Definition COMMENT_RE : re :=
  hint_re (RAlt (RWord (chars "if")) (RAlt (RWord (chars "else")) (RWord (chars "next")))).

(** [str::trim] *)
Fixpoint trim_start (t : text) : text :=
  match t with
  | c :: t' => if is_space c then trim_start t' else t
  | [] => []
  end.
Definition trim (t : text) : text := rev (trim_start (rev (trim_start t))).

(** A comment table: what [Comments::get_leading]/[get_trailing] return at a position.
    Only the [text] of a comment is read by this code base. *)
Record comments := mkComments {
  leading : N -> option (list text);
  trailing : N -> option (list text)
}.

(** [Span] without the hygiene context; position 0 is [BytePos::DUMMY]. *)
Record span := mkSpan { lo : N; hi : N }.
Definition dummy_span : span := mkSpan 0 0.

Fixpoint find_map {A B} (f : A -> option B) (l : list A) : option B :=
  match l with
  | [] => None
  | a :: l' => match f a with Some b => Some b | None => find_map f l' end
  end.

(** hint_comments.rs:57-62 / 70-75: the closure of [find_map] *)
Definition hint_of_comment (c : text) : option text :=
  match rsearch COMMENT_RE 0 c with
  | Some (_, _, g) => option_map trim g
  | None => None
  end.

(** hint_comments.rs:48-82 *)
Definition lookup_hint_comments (cs : comments) (sp : option span) : option text :=
  match sp with
  | None => None
  | Some sp =>
      let h := leading cs (hi sp) in
      let l := leading cs (lo sp) in
      let h_value := match h with Some h => find_map hint_of_comment h | None => None end in
      match h_value with
      | Some v => Some v
      | None => match l with Some l => find_map hint_of_comment l | None => None end
      end
  end.

(** hint_comments.rs:84-89 *)
Inductive ignore_scope := INext | IIf | IElse.

Definition text_eqb (a b : text) : bool :=
  if list_eq_dec N.eq_dec a b then true else false.

(** hint_comments.rs:91-107 *)
Definition should_ignore (cs : comments) (sp : option span) : option ignore_scope :=
  match lookup_hint_comments cs sp with
  | Some t =>
      if text_eqb t (chars "next") then Some INext
      else if text_eqb t (chars "if") then Some IIf
      else if text_eqb t (chars "else") then Some IElse
      else None
  | None => None
  end.

(** hint_comments.rs:28-36 *)
Definition validate_comments (cs : option (list text)) : bool :=
  match cs with
  | Some cs => existsb (fun c => match rsearch COMMENT_FILE_REGEX 0 c with
                                 | Some _ => true | None => false end) cs
  | None => false
  end.

(** hint_comments.rs:22-46 ([pos] is the span of the program) *)
Definition should_ignore_file (cs : comments) (pos : span) : bool :=
  existsb validate_comments
    [leading cs (lo pos); leading cs (hi pos); trailing cs (lo pos); trailing cs (hi pos)].
End Patterns.

(** [as u32] on a usize *)
Definition as_u32 (n : N) : N := n mod u32_mod.

(** lookup_range.rs:7-27; [lookup_char_pos] is the oracle of the source mapper, giving
    line and column *)
Definition get_range_from_span (lookup_char_pos : N -> N * N) (sp : span) : range :=
  if (hi sp =? 0) || (lo sp =? 0) then range_default
  else
    let h := lookup_char_pos (hi sp) in
    let l := lookup_char_pos (lo sp) in
    range_new (as_u32 (fst l)) (as_u32 (snd l)) (as_u32 (fst h)) (as_u32 (snd h)).
