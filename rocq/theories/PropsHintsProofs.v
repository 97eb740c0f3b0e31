(** Property theorems proved in [HintsProofs.v]; generated by tools/genprops.py. *)
From Coq Require Import NArith String Ascii List Bool Lia PeanoNat.
Import ListNotations.
From Verif Require Import Base Oxide Hints.
Open Scope N_scope.
From Verif Require Import HintsProofs.

Theorem C25_hint_grammar : forall word_hi c k,
  hint_of_comment word_hi c = Some k <-> section_kind k /\ hint_text word_hi k c.
Proof. exact (@hint_grammar). Qed.
Print Assumptions C25_hint_grammar.

Theorem C25_no_hint_iff : forall word_hi c,
  hint_of_comment word_hi c = None <-> forall k, section_kind k -> ~ hint_text word_hi k c.
Proof. exact (@no_hint_iff). Qed.
Print Assumptions C25_no_hint_iff.

Theorem C25_file_hint_grammar : forall word_hi c,
  validate_comments word_hi (Some [c]) = true <-> hint_text word_hi (chars "file") c.
Proof. exact (@file_hint_grammar). Qed.
Print Assumptions C25_file_hint_grammar.

Theorem C25_word_class : forall word_hi c, c < 128 ->
  (is_word word_hi c = true <->
   exists a, c = N_of_ascii a /\ In a (list_ascii_of_string "0123456789ABCDEFGHIJKLMNOPQRSTUVWXYZ_abcdefghijklmnopqrstuvwxyz")).
Proof. exact (@word_class). Qed.
Print Assumptions C25_word_class.

Theorem C25_word_class_hi : forall word_hi c, 128 <= c -> is_word word_hi c = word_hi c.
Proof. exact (@word_class_hi). Qed.
Print Assumptions C25_word_class_hi.

Theorem C25_space_class : forall c, is_space c = true <->
  In c [9; 10; 11; 12; 13; 32; 133; 160; 5760; 8192; 8193; 8194; 8195; 8196; 8197; 8198; 8199; 8200; 8201; 8202;
        8232; 8233; 8239; 8287; 12288].
Proof. exact (@space_class). Qed.
Print Assumptions C25_space_class.

Theorem C25_hint_examples :
  hint_of_comment ascii_only (chars " istanbul ignore next ") = Some (chars "next") /\
  hint_of_comment ascii_only (chars "istanbul ignore nextline") = None /\
  hint_of_comment ascii_only (chars "* istanbul ignore next") = None /\
  hint_of_comment ascii_only (chars "istanbul ignore  if-branch") = Some (chars "if") /\
  hint_of_comment ascii_only (chars "istanbulignore if") = None /\
  hint_of_comment ascii_only (160 :: chars "istanbul ignore else") = Some (chars "else").
Proof. exact (@hint_examples). Qed.
Print Assumptions C25_hint_examples.

Theorem C26_lookup_first_hint : forall word_hi cs sp,
  lookup_hint_comments word_hi cs (Some sp) =
  hd_error (hints_in word_hi (comments_at (leading cs (hi sp)) ++ comments_at (leading cs (lo sp)))).
Proof. exact (@lookup_first_hint). Qed.
Print Assumptions C26_lookup_first_hint.

Theorem C26_should_ignore_spec : forall word_hi cs sp s,
  should_ignore word_hi cs sp = Some s <->
  lookup_hint_comments word_hi cs sp = Some (scope_word s).
Proof. exact (@should_ignore_spec). Qed.
Print Assumptions C26_should_ignore_spec.

Theorem C26_should_ignore_none_iff : forall word_hi cs sp,
  should_ignore word_hi cs (Some sp) = None <->
  forall c, In c (comments_at (leading cs (hi sp)) ++ comments_at (leading cs (lo sp))) ->
            forall k, section_kind k -> ~ hint_text word_hi k c.
Proof. exact (@should_ignore_none_iff). Qed.
Print Assumptions C26_should_ignore_none_iff.

Theorem C26_lookup_examples :
  should_ignore ascii_only sample_comments (Some (mkSpan 7 9)) = Some IIf /\
  should_ignore ascii_only sample_comments (Some (mkSpan 7 12)) = Some IElse /\
  should_ignore ascii_only sample_comments (Some (mkSpan 20 22)) = None /\
  should_ignore_file ascii_only sample_comments (mkSpan 3 20) = true /\
  should_ignore_file ascii_only sample_comments (mkSpan 7 9) = false.
Proof. exact (@lookup_examples). Qed.
Print Assumptions C26_lookup_examples.

Theorem C28_range_lookup : forall lookup sp,
  lo sp <> 0 -> hi sp <> 0 ->
  fst (lookup (lo sp)) < u32_mod -> snd (lookup (lo sp)) < u32_mod ->
  fst (lookup (hi sp)) < u32_mod -> snd (lookup (hi sp)) < u32_mod ->
  get_range_from_span lookup sp =
  mkRange (mkLoc (fst (lookup (lo sp))) (snd (lookup (lo sp))))
          (mkLoc (fst (lookup (hi sp))) (snd (lookup (hi sp)))).
Proof. exact (@range_lookup). Qed.
Print Assumptions C28_range_lookup.

Theorem C28_range_dummy : forall lookup sp, lo sp = 0 \/ hi sp = 0 ->
  get_range_from_span lookup sp = range_new 0 0 0 0.
Proof. exact (@range_dummy). Qed.
Print Assumptions C28_range_dummy.

Theorem C28_range_zero_iff : forall lookup sp,
  (forall p, p <> 0 -> 1 <= fst (lookup p) < u32_mod) ->
  (get_range_from_span lookup sp = range_new 0 0 0 0 <-> lo sp = 0 \/ hi sp = 0).
Proof. exact (@range_zero_iff). Qed.
Print Assumptions C28_range_zero_iff.

