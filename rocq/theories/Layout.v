(** C53: instrumentation depends on the layout of a source text only through the coverage hints and the locations.

    Two programs with the same tree but other positions, comments, file names or input source maps are instrumented in
    the same way: the outputs have the same counters at the same places and the records differ only in the locations, as
    the locations of the sources do.  The proof runs the two visits side by side. *)
From Coq Require Import NArith String List Bool Lia PeanoNat.
Import ListNotations.
From Verif Require Import Base IndexMap Decimal Oxide SourceCov Hints Ast Visitor VisitorEx.
Open Scope N_scope.

(** ** Related records and trees *)
Definition opt_rel {A B} (R : A -> B -> Prop) (a : option A) (b : option B) : Prop :=
  match a, b with Some x, Some y => R x y | None, None => True | _, _ => False end.
Definition row_rel {A B} (R : A -> B -> Prop) (p : N * A) (q : N * B) : Prop := fst p = fst q /\ R (snd p) (snd q).

Section Rel.
(** How spans and ranges of the two programs correspond *)
Context (S : span -> span -> Prop) (G : range -> range -> Prop).
(** File names and input source maps of the two programs *)
Context (path1 path2 : string) (ism1 ism2 : option source_map).

(** Line numbers correspond if they are the first lines of corresponding ranges *)
Definition line_rel (l1 l2 : N) : Prop := exists r1 r2, G r1 r2 /\ l1 = line (rstart r1) /\ l2 = line (rstart r2).

Definition func_rel (f1 f2 : func) : Prop :=
  f_name f1 = f_name f2 /\ G (f_decl f1) (f_decl f2) /\ G (f_loc f1) (f_loc f2) /\ line_rel (f_line f1) (f_line f2).
Definition branch_rel (b1 b2 : branch) : Prop :=
  opt_rel G (b_loc b1) (b_loc b2) /\ b_type b1 = b_type b2 /\ Forall2 G (b_locations b1) (b_locations b2) /\
  opt_rel line_rel (b_line b1) (b_line b2).
(** Same ids, names, kinds and counts, corresponding locations; the file name and the source map are those given. *)
Record fc_rel (a b : file_coverage) : Prop := mkFCRel {
  r_head1 : fc_path a = path1 /\ fc_input_source_map a = ism1;
  r_head2 : fc_path b = path2 /\ fc_input_source_map b = ism2;
  r_all : fc_all a = fc_all b;
  r_sm : Forall2 (row_rel G) (fc_statement_map a) (fc_statement_map b);
  r_fm : Forall2 (row_rel func_rel) (fc_fn_map a) (fc_fn_map b);
  r_bm : Forall2 (row_rel branch_rel) (fc_branch_map a) (fc_branch_map b);
  r_s : fc_s a = fc_s b;
  r_f : fc_f a = fc_f b;
  r_b : fc_b a = fc_b b;
  r_bt : fc_b_t a = fc_b_t b
}.
Definition sc_rel (a b : source_cov) : Prop :=
  fc_rel (sc_fc a) (sc_fc b) /\ sc_s a = sc_s b /\ sc_f a = sc_f b /\ sc_b a = sc_b b.

(** Same kinds, corresponding spans; an embedded record corresponds. *)
Definition is_template (k : kind) : bool := match k with KTemplateFn _ => true | _ => false end.
Inductive kind_rel : kind -> kind -> Prop :=
| kr_same k : is_template k = false -> kind_rel k k
| kr_tpl a b : fc_rel a b -> kind_rel (KTemplateFn a) (KTemplateFn b).
Inductive like : node -> node -> Prop :=
| like_node k1 k2 sp1 sp2 cs1 cs2 : kind_rel k1 k2 -> S sp1 sp2 -> likes cs1 cs2 -> like (Node k1 sp1 cs1) (Node k2 sp2 cs2)
with likes : list node -> list node -> Prop :=
| likes_nil : likes [] []
| likes_cons a b l1 l2 : like a b -> likes l1 l2 -> likes (a :: l1) (b :: l2).

(** ** Tables *)
Lemma get_rel {A B} (R : A -> B -> Prop) m1 m2 k : Forall2 (row_rel R) m1 m2 -> opt_rel R (im_get k m1) (im_get k m2).
Proof.
  induction 1 as [|[k1 a] [k2 b] m1 m2 [E Ra] _ IH]; cbn; [exact I|]. cbn in E, Ra. subst k2. change (N.eqb k k1) with (eqb k k1).
  destruct (eqb k k1); auto.
Qed.
Lemma insert_rel {A B} (R : A -> B -> Prop) m1 m2 k a b : Forall2 (row_rel R) m1 m2 -> R a b ->
  Forall2 (row_rel R) (im_insert k a m1) (im_insert k b m2).
Proof.
  intros F Rab. induction F as [|[k1 a1] [k2 b1] m1 m2 [E Ra] Fm IH]; cbn.
  - repeat constructor; auto.
  - cbn in E, Ra. subst k2. change (N.eqb k k1) with (eqb k k1).
    destruct (eqb k k1); constructor; auto; split; auto.
Qed.
Lemma update_rel {A B} (R : A -> B -> Prop) m1 m2 k f g : Forall2 (row_rel R) m1 m2 -> (forall a b, R a b -> R (f a) (g b)) ->
  Forall2 (row_rel R) (im_update k f m1) (im_update k g m2).
Proof.
  intros F Rab. induction F as [|[k1 a1] [k2 b1] m1 m2 [E Ra] Fm IH]; cbn.
  - constructor.
  - cbn in E, Ra. subst k2. change (N.eqb k k1) with (eqb k k1).
    destruct (eqb k k1); constructor; auto; split; cbn; auto.
Qed.
Lemma retain_rel {A B} (R : A -> B -> Prop) m1 m2 p q : Forall2 (row_rel R) m1 m2 -> (forall k a b, R a b -> p k a = q k b) ->
  Forall2 (row_rel R) (im_retain p m1) (im_retain q m2).
Proof.
  intros F Rab. induction F as [|[k1 a1] [k2 b1] m1 m2 [E Ra] Fm IH]; cbn; [constructor|].
  cbn in E, Ra. subst k2. rewrite (Rab k1 _ _ Ra). destruct (q k1 b1); auto. constructor; auto. split; auto.
Qed.
Lemma paths_rel b1 b2 : branch_rel b1 b2 -> has_paths b1 = has_paths b2.
Proof. intros (_ & _ & F & _). unfold has_paths. destruct F; reflexivity. Qed.
Lemma prune_rel {V} m1 m2 (m : imap N V) : Forall2 (row_rel branch_rel) m1 m2 -> prune m1 m = prune m2 m.
Proof.
  unfold prune. intros F. revert m. induction F as [|[k1 a1] [k2 b1] m1 m2 [E Ra] Fm IH]; intros m; cbn [fold_left]; auto.
  cbn in E, Ra. subst k2. cbn [fst snd]. rewrite (paths_rel _ _ Ra). apply IH.
Qed.

Lemma stmt_rel r1 r2 a b : G r1 r2 -> sc_rel a b ->
  sc_rel (fst (new_statement r1 a)) (fst (new_statement r2 b)) /\ snd (new_statement r1 a) = snd (new_statement r2 b).
Proof.
  intros Hg (F & E1 & E2 & E3). destruct F. unfold new_statement. cbn [fst snd]. split; auto.
  split; [|cbn [sc_s sc_f sc_b]; rewrite E1; auto]. constructor; cbn; auto; rewrite E1; [apply insert_rel; auto|congruence].
Qed.
Lemma fn_rel n d1 d2 r1 r2 a b : G d1 d2 -> G r1 r2 -> sc_rel a b ->
  sc_rel (fst (new_function n d1 r1 a)) (fst (new_function n d2 r2 b)) /\
  snd (new_function n d1 r1 a) = snd (new_function n d2 r2 b).
Proof.
  intros Hd Hg (F & E1 & E2 & E3). destruct F. unfold new_function. cbn [fst snd]. split; auto.
  split; [|cbn [sc_s sc_f sc_b]; rewrite E2; auto]. constructor; cbn; auto; rewrite E2; [apply insert_rel; auto|congruence].
  split; [reflexivity|]. repeat (split; auto). exists r1, r2. auto.
Qed.
Lemma branch_new_rel t l r1 r2 a b : G r1 r2 -> sc_rel a b ->
  sc_rel (fst (new_branch t r1 l a)) (fst (new_branch t r2 l b)) /\ snd (new_branch t r1 l a) = snd (new_branch t r2 l b).
Proof.
  intros Hg (F & E1 & E2 & E3). destruct F. unfold new_branch. cbn [fst snd]. split; auto.
  split; [|cbn [sc_s sc_f sc_b]; rewrite E3; auto]. constructor; cbn; auto; rewrite E3; try congruence.
  apply insert_rel; auto. split; [exact Hg|]. split; [reflexivity|]. split; [constructor|]. cbn. exists r1, r2. auto.
Qed.

(** ** Related outcomes *)
Definition res_rel {A B} (R : A -> B -> Prop) (m1 : res A) (m2 : res B) : Prop :=
  match m1, m2 with
  | Ok a, Ok b => R a b
  | Panic r1, Panic r2 => r1 = r2
  | OutOfFuel, OutOfFuel => True
  | _, _ => False
  end.
Lemma bind_rel {A B C D} (R : A -> B -> Prop) (Q : C -> D -> Prop) m1 m2 k1 k2 :
  res_rel R m1 m2 -> (forall a b, R a b -> res_rel Q (k1 a) (k2 b)) -> res_rel Q (bind m1 k1) (bind m2 k2).
Proof. destruct m1, m2; cbn; intros H K; try contradiction; auto. Qed.
Lemma expect_rel {A B} (R : A -> B -> Prop) r a b : opt_rel R a b -> res_rel R (expect r a) (expect r b).
Proof. destruct a, b; cbn; auto. Qed.

Lemma add_path_rel n r1 r2 a b : G r1 r2 -> sc_rel a b ->
  res_rel (fun p q => sc_rel (fst p) (fst q) /\ snd p = snd q) (add_branch_path n r1 a) (add_branch_path n r2 b).
Proof.
  intros Hg (F & E1 & E2 & E3). destruct F as [Fh1 Fh2 F1 F2 F3 F4 F5 F6 F7 F8]. unfold add_branch_path.
  eapply bind_rel; [apply (expect_rel branch_rel), get_rel, F4|]. intros _ _ _. rewrite F7.
  destruct (im_get n (fc_b (sc_fc b))); cbn [expect bind]; [|reflexivity].
  destruct (im_get n (im_update n _ (fc_b (sc_fc b)))); cbn [expect bind res_rel]; [|reflexivity].
  cbn [fst snd]. split; [|reflexivity]. split; [|auto]. constructor; cbn; auto; try congruence.
  apply update_rel; auto. intros x y (A1 & A2 & A3 & A4). split; [exact A1|]. split; [exact A2|]. split; [|exact A4].
  cbn. apply Forall2_app; auto.
Qed.
Lemma freeze_rel a b : sc_rel a b -> sc_rel (freeze a) (freeze b).
Proof.
  intros (F & E1 & E2 & E3). destruct F as [Fh1 Fh2 F1 F2 F3 F4 F5 F6 F7 F8]. unfold freeze. split; [|auto]. constructor; cbn; auto.
  - apply retain_rel; auto. intros _ x y. apply paths_rel.
  - rewrite F7. now apply prune_rel.
  - rewrite F8. destruct (fc_b_t (sc_fc b)); cbn; auto. f_equal. now apply prune_rel.
Qed.

(** ** Trees *)
Hypothesis S0 : S dummy_span dummy_span.
Lemma mk_like k c1 c2 : is_template k = false -> likes c1 c2 -> like (mk k c1) (mk k c2).
Proof. intros T H. constructor; auto. now constructor. Qed.
Lemma same_like k sp1 sp2 c1 c2 : is_template k = false -> S sp1 sp2 -> likes c1 c2 -> like (Node k sp1 c1) (Node k sp2 c2).
Proof. intros. constructor; auto. now constructor. Qed.
Lemma likes_app a1 a2 b1 b2 : likes a1 a2 -> likes b1 b2 -> likes (a1 ++ b1) (a2 ++ b2).
Proof. induction 1; cbn; auto. constructor; auto. Qed.
Lemma counter_like c : like (counter_stmt c) (counter_stmt c).
Proof. repeat apply mk_like || constructor; auto. Qed.
Lemma counter_expr_like c : like (counter_expr c) (counter_expr c).
Proof. repeat apply mk_like || constructor; auto. Qed.
Lemma paren_like c a b : like a b -> like (paren_seq c a) (paren_seq c b).
Proof. intros H. unfold paren_seq, E. repeat (apply mk_like || constructor; auto). Qed.
Lemma true_like b i x y : like x y -> like (increase_true_expr b i x) (increase_true_expr b i y).
Proof. intros H. unfold increase_true_expr, validate_true_non_trivial, E, counter_expr. repeat (apply mk_like || constructor; auto). Qed.
Lemma like_span a b : like a b -> S (nspan a) (nspan b).
Proof. now intros []. Qed.
Lemma like_kind a b : like a b -> kind_rel (nkind a) (nkind b).
Proof. now intros []. Qed.
Lemma like_kids a b : like a b -> likes (nkids a) (nkids b).
Proof. now intros []. Qed.
Lemma like_eta a b c1 c2 : like a b -> likes c1 c2 -> like (Node (nkind a) (nspan a) c1) (Node (nkind b) (nspan b) c2).
Proof. intros [] L. now constructor. Qed.

Scheme like_mut := Minimality for like Sort Prop with likes_mut := Minimality for likes Sort Prop.
Combined Scheme like_all_ind from like_mut, likes_mut.

Lemma occurs_like p : (forall a b, p (KTemplateFn a) = p (KTemplateFn b)) ->
  forall a b, like a b -> occurs p a = occurs p b.
Proof.
  intros Hp. assert (H : (forall a b, like a b -> occurs p a = occurs p b) /\
    (forall l1 l2, likes l1 l2 -> existsb (occurs p) l1 = existsb (occurs p) l2)); [|apply H].
  apply like_all_ind; cbn.
  - intros k1 k2 sp1 sp2 c1 c2 K _ _ IH. rewrite IH. destruct K; auto. now rewrite (Hp a b).
  - reflexivity.
  - intros. congruence.
Qed.
Lemma has_logical_like a b : like a b -> has_logical a = has_logical b.
Proof. apply occurs_like. reflexivity. Qed.
Lemma has_hoisting_like a b : like a b -> has_hoisting a = has_hoisting b.
Proof. apply occurs_like. reflexivity. Qed.
Lemma has_block_like a b : like a b -> has_block a = has_block b.
Proof. apply occurs_like. reflexivity. Qed.
Lemma has_stmt_like a b : like a b -> has_stmt a = has_stmt b.
Proof. apply occurs_like. reflexivity. Qed.
Lemma has_expr_like a b : like a b -> has_expr a = has_expr b.
Proof. apply occurs_like. reflexivity. Qed.
Lemma is_none_like a b : like a b -> is_none a = is_none b.
Proof. intros H. unfold is_none. now destruct (like_kind _ _ H). Qed.
Lemma is_block_like a b : like a b -> is_block a = is_block b.
Proof. intros H. unfold is_block. now destruct (like_kind _ _ H). Qed.
Lemma is_expr_like a b : like a b -> is_expr a = is_expr b.
Proof. intros H. unfold is_expr. now destruct (like_kind _ _ H). Qed.
Lemma is_absent_like a b : like a b -> is_absent a = is_absent b.
Proof. intros [k1 k2 sp1 sp2 c1 c2 K _ L]. destruct K as [k|]; [|reflexivity]. destruct k; try reflexivity. now destruct L. Qed.

Definition sub_rel (p q : span * node) : Prop := S (fst p) (fst q) /\ like (snd p) (snd q).
Definition subs_rel (p q : span * list node) : Prop := S (fst p) (fst q) /\ likes (snd p) (snd q).
Lemma stmt_view_like a b : like a b -> opt_rel sub_rel (stmt_view a) (stmt_view b).
Proof.
  intros [k1 k2 sp1 sp2 c1 c2 K Hs L]. destruct K as [k|]; [|exact I]. destruct k; try exact I.
  destruct L as [|x y l1 l2 Hx L]; [exact I|]. destruct L; [|exact I]. split; auto.
Qed.
Lemma expr_view_like a b : like a b -> opt_rel sub_rel (expr_view a) (expr_view b).
Proof.
  intros [k1 k2 sp1 sp2 c1 c2 K Hs L]. destruct K as [k|]; [|exact I]. destruct k; try exact I.
  destruct L as [|x y l1 l2 Hx L]; [exact I|]. destruct L; [|exact I]. split; auto.
Qed.
Lemma stmts_view_like a b : like a b -> opt_rel subs_rel (stmts_view a) (stmts_view b).
Proof. intros [k1 k2 sp1 sp2 c1 c2 K Hs L]. destruct K as [k|]; [|exact I]. destruct k; try exact I. split; auto. Qed.
Definition block_rel (p q : bool * span * span * list node) : Prop :=
  match p, q with (i, b1, s1, l1), (j, b2, s2, l2) => i = j /\ S b1 b2 /\ S s1 s2 /\ likes l1 l2 end.
Lemma block_view_like a b : like a b -> opt_rel block_rel (block_view a) (block_view b).
Proof.
  intros [k1 k2 sp1 sp2 c1 c2 K Hs L]. destruct K as [k|]; [|exact I]. destruct k; try exact I.
  destruct L as [|x y l1 l2 Hx L]; [exact I|]. destruct L; [|exact I]. cbn [block_view].
  pose proof (stmts_view_like _ _ Hx) as V. destruct (stmts_view x) as [[s1 ss1]|], (stmts_view y) as [[s2 ss2]|]; cbn in V; try contradiction; [|exact I].
  destruct V as [V1 V2]. repeat split; auto.
Qed.
Definition named_rel (p q : string * span) : Prop := fst p = fst q /\ S (snd p) (snd q).
Lemma ident_view_like a b : like a b -> opt_rel named_rel (ident_view a) (ident_view b).
Proof. intros [k1 k2 sp1 sp2 c1 c2 K Hs L]. unfold ident_view. cbn. destruct K as [k|]; [|exact I]. destruct k; try exact I. split; auto. Qed.
Lemma prop_ident_view_like a b : like a b -> opt_rel named_rel (prop_ident_view a) (prop_ident_view b).
Proof. intros [k1 k2 sp1 sp2 c1 c2 K Hs L]. unfold prop_ident_view. cbn. destruct K as [k|]; [|exact I]. destruct k; try exact I. split; auto. Qed.
Lemma expr_stmt_view_like a b : like a b -> opt_rel like (expr_stmt_view a) (expr_stmt_view b).
Proof.
  intros H. unfold expr_stmt_view. pose proof (stmt_view_like _ _ H) as V.
  destruct (stmt_view a) as [[s1 x]|], (stmt_view b) as [[s2 y]|]; cbn in V; try contradiction; [|exact I]. destruct V as [_ V].
  cbn [snd] in V. destruct V as [k1 k2 sp1 sp2 c1 c2 K Hs L]. destruct K as [k|]; [|exact I]. destruct k; try exact I.
  destruct L as [|u w l1 l2 Hx L]; [exact I|]. destruct L; [|exact I]. exact Hx.
Qed.
Lemma injected_expr_like a b : like a b -> is_injected_counter_expr a = is_injected_counter_expr b.
Proof.
  intros H. unfold is_injected_counter_expr. pose proof (expr_view_like _ _ H) as V.
  destruct (expr_view a) as [[s1 x]|], (expr_view b) as [[s2 y]|]; cbn in V; try contradiction; auto.
  destruct V as [_ V]. cbn [snd] in V. now destruct (like_kind _ _ V).
Qed.
Lemma injected_stmt_like a b : like a b -> is_injected_counter_stmt a = is_injected_counter_stmt b.
Proof.
  intros H. unfold is_injected_counter_stmt. pose proof (expr_stmt_view_like _ _ H) as V.
  destruct (expr_stmt_view a), (expr_stmt_view b); cbn in V; try contradiction; auto using injected_expr_like.
Qed.
Lemma tagged_like a b : like a b -> is_tagged_tpl a = is_tagged_tpl b.
Proof.
  intros H. unfold is_tagged_tpl. pose proof (expr_view_like _ _ H) as V.
  destruct (expr_view a) as [[s1 x]|], (expr_view b) as [[s2 y]|]; cbn in V; try contradiction; auto.
  destruct V as [_ V]. cbn [snd] in V. now destruct (like_kind _ _ V).
Qed.
Lemma directive_expr_like a b : like a b -> is_directive_expr a = is_directive_expr b.
Proof.
  intros H. unfold is_directive_expr. pose proof (expr_view_like _ _ H) as V.
  destruct (expr_view a) as [[s1 x]|], (expr_view b) as [[s2 y]|]; cbn in V; try contradiction; auto.
  destruct V as [_ V]. cbn [snd] in V. destruct V as [k1 k2 sp1 sp2 c1 c2 K Hs L]. now destruct K.
Qed.
Lemma directive_continue_like a b : like a b -> directive_continue a = directive_continue b.
Proof.
  intros H. unfold directive_continue. pose proof (expr_stmt_view_like _ _ H) as V.
  destruct (expr_stmt_view a) as [u|], (expr_stmt_view b) as [w|]; cbn in V; try contradiction; auto.
  pose proof (expr_view_like _ _ V) as W. destruct (expr_view u) as [[s1 x]|], (expr_view w) as [[s2 y]|]; cbn in W; try contradiction; auto.
  destruct W as [_ W]. cbn [snd] in W. now destruct (like_kind _ _ W).
Qed.
Lemma export_const_like a b : like a b -> opt_rel S (export_const_span a) (export_const_span b).
Proof.
  intros [k1 k2 sp1 sp2 c1 c2 K Hs L]. destruct K as [k|]; [|exact I]. destruct k; try exact I.
  destruct L as [|x y l1 l2 Hx L]; [exact I|]. destruct L; [|now destruct Hx as [k1 k2 ? ? c1 c2 K _ L']; destruct K as [k|]; [destruct k|]; try exact I; destruct L' as [|? ? ? ? ? L']; try exact I; destruct L'].
  destruct Hx as [k1 k2 xs1 xs2 c1 c2 K Hxs L]. destruct K as [k|]; [|exact I]. destruct k; try exact I.
  destruct L as [|u w l1 l2 Hu L]; [exact I|]. destruct L; [|exact I]. cbn [export_const_span].
  destruct (like_kind _ _ Hu) as [k|]; [|exact I]. destruct k; try exact I. destruct vk; try exact I. exact Hxs.
Qed.
Lemma prepend_like c a b : like a b -> opt_rel like (prepend_to_block c a) (prepend_to_block c b).
Proof.
  intros H. unfold prepend_to_block. pose proof (block_view_like _ _ H) as V.
  destruct (block_view a) as [[[[i b1] s1] l1]|], (block_view b) as [[[[j b2] s2] l2]|]; cbn in V; try contradiction; [|exact I].
  destruct V as (<- & V1 & V2 & V3). cbn. apply same_like; [reflexivity|auto|]. repeat constructor; auto.
Qed.
Lemma to_block_like a b : like a b -> opt_rel like (to_block a) (to_block b).
Proof.
  intros H. unfold to_block. pose proof (stmt_view_like _ _ H) as V.
  destruct (stmt_view a) as [[s1 x]|], (stmt_view b) as [[s2 y]|]; cbn in V; try contradiction; [|exact I].
  destruct V as [_ V]. cbn [snd] in V. rewrite (is_block_like _ _ V). destruct (is_block y); cbn; auto.
  repeat (apply mk_like || constructor; auto).
Qed.
Lemma block_last_like l1 l2 : likes l1 l2 -> opt_rel likes (block_last l1) (block_last l2).
Proof.
  induction 1 as [|a b l1 l2 H L IH]; [exact I|]. cbn. destruct L as [|x y m1 m2 Hx L].
  - pose proof (to_block_like _ _ H) as V. destruct (to_block a), (to_block b); cbn in V |- *; try contradiction; auto. repeat constructor; auto.
  - destruct (block_last (x :: m1)), (block_last (y :: m2)); cbn in IH |- *; try contradiction; auto. constructor; auto.
Qed.
Lemma ret_like sp1 sp2 b1 b2 : S sp1 sp2 -> like b1 b2 -> like (Node KStmt sp1 [Node KReturn sp1 [b1]]) (Node KStmt sp2 [Node KReturn sp2 [b2]]).
Proof. intros. repeat (apply same_like || constructor; auto). Qed.

(** ** Visits *)
Context (e1 e2 : env).
Hypothesis Hhint : forall a b, S a b -> hint e1 a = hint e2 b.
Hypothesis Hrange : forall a b, S a b -> G (range_of e1 a) (range_of e2 b).
Hypothesis Hlogic : e_report_logic e1 = e_report_logic e2.
Hypothesis Hmeth : e_ignore_methods e1 = e_ignore_methods e2.

Definition st_rel (s1 s2 : st) : Prop :=
  sc_rel (cov s1) (cov s2) /\ likes (before s1) (before s2) /\ stack s1 = stack s2 /\ ign s1 = ign s2.
Definition out_rel (p q : node * st) : Prop := like (fst p) (fst q) /\ st_rel (snd p) (snd q).
Definition outs_rel (p q : list node * st) : Prop := likes (fst p) (fst q) /\ st_rel (snd p) (snd q).

Lemma st_push n s1 s2 : st_rel s1 s2 -> st_rel (push n s1) (push n s2).
Proof. intros (A & B & C & D). repeat split; auto; try apply A. cbn. congruence. Qed.
Lemma st_pop s1 s2 : st_rel s1 s2 -> st_rel (pop s1) (pop s2).
Proof. intros (A & B & C & D). split; [exact A|]. split; [exact B|]. split; [cbn; congruence|exact D]. Qed.
Lemma st_ign i s1 s2 : st_rel s1 s2 -> st_rel (set_ign i s1) (set_ign i s2).
Proof. intros (A & B & C & D). split; [exact A|]. split; [exact B|]. split; auto. Qed.
Lemma st_cov c1 c2 s1 s2 : sc_rel c1 c2 -> st_rel s1 s2 -> st_rel (set_cov c1 s1) (set_cov c2 s2).
Proof. intros K (A & B & C & D). split; [exact K|]. split; [exact B|]. split; auto. Qed.
Lemma st_clear s1 s2 : st_rel s1 s2 -> st_rel (clear_before s1) (clear_before s2).
Proof. intros (A & B & C & D). split; [exact A|]. split; [constructor|]. split; auto. Qed.
Lemma st_spawn i s1 s2 : st_rel s1 s2 -> st_rel (spawn s1 i) (spawn s2 i).
Proof. intros (A & B & C & D). split; [exact A|]. split; [constructor|]. split; auto. Qed.
Lemma st_exit o s1 s2 : st_rel s1 s2 -> st_rel (on_exit o s1) (on_exit o s2).
Proof. intros. unfold on_exit. apply st_pop, st_ign. auto. Qed.
Lemma st_mark a b s1 s2 : S a b -> st_rel s1 s2 -> st_rel (mark_prepend_stmt_counter e1 a s1) (mark_prepend_stmt_counter e2 b s2).
Proof.
  intros Hs (A & B & C & D). unfold mark_prepend_stmt_counter.
  destruct (stmt_rel _ _ _ _ (Hrange _ _ Hs) A) as [P Q].
  destruct (new_statement (range_of e1 a) (cov s1)) as [c1 i1], (new_statement (range_of e2 b) (cov s2)) as [c2 i2]. cbn [fst snd] in P, Q. subst i2.
  split; [exact P|]. split; [|split; auto]. cbn. apply likes_app; auto. repeat constructor; auto.
Qed.
Lemma enter_rel a b s1 s2 : S a b -> st_rel s1 s2 ->
  exists t1 t2 o c, on_enter_with_span e1 a s1 = (t1, o, c) /\ on_enter_with_span e2 b s2 = (t2, o, c) /\ st_rel t1 t2.
Proof.
  intros Hs H. unfold on_enter_with_span. pose proof H as (A & B & C & D). rewrite D, (Hhint _ _ Hs).
  destruct (is_next (ign s2)); [exists s1, s2; eauto|]. eexists _, _, _, _. split; [reflexivity|]. split; [reflexivity|]. now apply st_ign.
Qed.

Section Step.
Context (rec1 rec2 : vis -> node -> st -> res (node * st)).
Hypothesis Hrec : forall v t1 t2 s1 s2, like t1 t2 -> st_rel s1 s2 -> res_rel out_rel (rec1 v t1 s1) (rec2 v t2 s2).

Lemma list_rel v l1 l2 : likes l1 l2 -> forall s1 s2, st_rel s1 s2 ->
  res_rel outs_rel (visit_list rec1 v l1 s1) (visit_list rec2 v l2 s2).
Proof.
  induction 1 as [|a b l1 l2 H L IH]; intros s1 s2 Hs; cbn [visit_list].
  - split; [constructor|exact Hs].
  - eapply bind_rel; [apply Hrec; eauto|]. intros [a' u1] [b' u2] [P Q]. cbn [fst snd] in P, Q.
    eapply bind_rel; [apply IH; eauto|]. intros [l1' w1] [l2' w2] [P' Q']. cbn [fst snd] in P', Q'.
    split; cbn; auto. constructor; auto.
Qed.
Lemma children_rel v t1 t2 s1 s2 : like t1 t2 -> st_rel s1 s2 ->
  res_rel out_rel (visit_children rec1 v t1 s1) (visit_children rec2 v t2 s2).
Proof.
  intros [k1 k2 sp1 sp2 c1 c2 K Hsp L] Hs. cbn [visit_children].
  eapply bind_rel; [apply list_rel; eauto|]. intros [l1 w1] [l2 w2] [P Q]. split; cbn in *; auto. constructor; auto.
Qed.
Lemma insert_counters_rel l1 l2 : likes l1 l2 -> forall s1 s2, st_rel s1 s2 ->
  res_rel outs_rel (insert_stmts_counter e1 rec1 l1 s1) (insert_stmts_counter e2 rec2 l2 s2).
Proof.
  induction 1 as [|a b l1 l2 H L IH]; intros s1 s2 Hs; cbn [insert_stmts_counter].
  - split; [constructor|exact Hs].
  - apply bind_rel with (R := outs_rel).
    + rewrite (injected_stmt_like _ _ H). destruct (is_injected_counter_stmt b).
      * split; cbn; auto. repeat constructor; auto.
      * unfold on_enter. destruct (enter_rel _ _ _ _ (like_span _ _ H) (st_push NStmt _ _ Hs)) as (t1 & t2 & o & c & -> & -> & Ht).
        destruct (is_next c).
        -- split; cbn [fst snd]; [repeat constructor; auto|]. now apply st_exit.
        -- eapply bind_rel; [apply children_rel; [exact H|apply st_spawn, Ht]|]. intros [a' u1] [b' u2] [P Q]. cbn [fst snd] in P, Q.
           split; cbn [fst snd]. { apply likes_app; [apply Q|]. repeat constructor; auto. } apply st_exit, st_cov; [apply Q|exact Ht].
    + intros [n1 u1] [n2 u2] [P Q]. cbn [fst snd] in P, Q. eapply bind_rel; [apply IH; eauto|].
      intros [r1 w1] [r2 w2] [P' Q']. cbn [fst snd] in P', Q'. split; cbn [fst snd]; auto. now apply likes_app.
Qed.
Lemma stmt_counter_rel a b s1 s2 : like a b -> st_rel s1 s2 ->
  out_rel (replace_expr_with_stmt_counter e1 a s1) (replace_expr_with_stmt_counter e2 b s2).
Proof.
  intros H Hs. unfold replace_expr_with_stmt_counter. pose proof Hs as (A & B & C & D).
  destruct (stmt_rel _ _ _ _ (Hrange _ _ (like_span _ _ H)) A) as [P Q].
  destruct (new_statement (range_of e1 (nspan a)) (cov s1)) as [c1 i1], (new_statement (range_of e2 (nspan b)) (cov s2)) as [c2 i2].
  cbn [fst snd] in P, Q. subst i2. split; cbn [fst snd]; [now apply paren_like|now apply st_cov].
Qed.
Lemma branch_counter_rel a b n s1 s2 : like a b -> st_rel s1 s2 ->
  res_rel out_rel (replace_expr_with_branch_counter e1 a n s1) (replace_expr_with_branch_counter e2 b n s2).
Proof.
  intros H Hs. unfold replace_expr_with_branch_counter. rewrite (is_expr_like _ _ H). destruct (negb (is_expr b)); [reflexivity|].
  eapply bind_rel; [apply add_path_rel; [exact (Hrange _ _ (like_span _ _ H))|apply Hs]|].
  intros [c1 i1] [c2 i2] [P Q]. cbn [fst snd] in P, Q. subst i2. split; cbn [fst snd]; [now apply paren_like|now apply st_cov].
Qed.
Lemma wrap_bin_rel v n a b s1 s2 : like a b -> st_rel s1 s2 ->
  res_rel out_rel (wrap_bin_expr_with_branch_counter e1 rec1 v n a s1) (wrap_bin_expr_with_branch_counter e2 rec2 v n b s2).
Proof.
  intros H Hs. unfold wrap_bin_expr_with_branch_counter. cbv zeta. rewrite (Hhint _ _ (like_span _ _ H)), (is_expr_like _ _ H).
  destruct (negb (is_expr b)); [reflexivity|]. destruct (is_next (hint e2 (nspan b))); [split; auto|].
  rewrite (has_logical_like _ _ H). destruct (has_logical b).
  - eapply bind_rel; [apply children_rel; [exact H|apply st_spawn, Hs]|]. intros [x1 u1] [x2 u2] [P Q]. cbn [fst snd] in P, Q.
    split; cbn [fst snd]; auto. apply st_cov; [apply Q|exact Hs].
  - rewrite Hlogic. destruct (e_report_logic e2).
    + eapply bind_rel; [apply add_path_rel; [exact (Hrange _ _ (like_span _ _ H))|apply Hs]|].
      intros [c1 i1] [c2 i2] [P Q]. cbn [fst snd] in P, Q. subst i2. split; cbn [fst snd]; [|now apply st_cov].
      unfold E. repeat (apply mk_like || apply likes_cons || apply likes_nil); auto using counter_expr_like, true_like.
    + eapply bind_rel; [apply children_rel; [exact H|exact Hs]|]. intros [x1 u1] [x2 u2] [P Q]. cbn [fst snd] in P, Q.
      now apply branch_counter_rel.
Qed.
Lemma cover_rel v a b s1 s2 : like a b -> st_rel s1 s2 ->
  res_rel out_rel (cover_statement e1 rec1 v a s1) (cover_statement e2 rec2 v b s2).
Proof.
  intros H Hs. unfold cover_statement. cbv zeta. rewrite (is_expr_like _ _ H), (tagged_like _ _ H).
  destruct (negb (is_expr b)); [reflexivity|]. pose proof (like_span _ _ H) as Hsp.
  destruct (is_tagged_tpl b). { apply children_rel; auto. now apply st_mark. }
  rewrite (has_block_like _ _ H), (has_stmt_like _ _ H), (has_hoisting_like _ _ H), (has_expr_like _ _ H).
  destruct (has_block b). { split; cbn [fst snd]; auto. now apply st_mark. }
  assert (Hu : st_rel (if has_stmt b then mark_prepend_stmt_counter e1 (nspan a) s1 else s1)
    (if has_stmt b then mark_prepend_stmt_counter e2 (nspan b) s2 else s2)).
  { destruct (has_stmt b); auto. now apply st_mark. }
  revert Hu. generalize (if has_stmt b then mark_prepend_stmt_counter e1 (nspan a) s1 else s1).
  generalize (if has_stmt b then mark_prepend_stmt_counter e2 (nspan b) s2 else s2).
  intros u2 u1 Hu. pose proof Hu as (_ & _ & Es & _). rewrite Es. destruct (stack u2) as [|parent ?]; [reflexivity|].
  destruct (_ && _).
  - destruct (nodes_get 3 _).
    + destruct (nodes_get 4 _) as [m|]; [|split; auto]. destruct m; split; cbn [fst snd]; auto; now apply st_mark.
    + cbn [res_rel]. now apply stmt_counter_rel.
  - destruct (has_expr b); cbn [res_rel]; [now apply stmt_counter_rel|split; auto].
Qed.
Lemma create_fn_rel id1 id2 f1 f2 s1 s2 : opt_rel named_rel id1 id2 -> like f1 f2 -> st_rel s1 s2 ->
  res_rel out_rel (create_fn_instrumentation e1 id1 f1 s1) (create_fn_instrumentation e2 id2 f2 s2).
Proof.
  intros Hid [k1 k2 sp1 sp2 c1 c2 K Hsp L] Hs. unfold create_fn_instrumentation.
  destruct K as [k|]; [|reflexivity]. destruct k; try reflexivity.
  destruct L as [|p1 p2 l1 l2 Hp L]; [reflexivity|]. destruct L as [|d1 d2 l1 l2 Hd L]; [reflexivity|].
  destruct L as [|b1 b2 l1 l2 Hb L]; [reflexivity|]. destruct L as [|t1 t2 l1 l2 Ht L]; [reflexivity|]. destruct L; [|reflexivity].
  cbv zeta. rewrite (is_none_like _ _ Hb). pose proof Hs as (A & _).
  assert (En : option_map fst id1 = option_map fst id2).
  { destruct id1 as [[]|], id2 as [[]|]; cbn in Hid |- *; try contradiction; auto. destruct Hid. cbn in *. congruence. }
  rewrite En.
  destruct (fn_rel (option_map fst id2) (range_of e1 (match id1 with Some (_, isp) => isp | None => sp1 end))
    (range_of e2 (match id2 with Some (_, isp) => isp | None => sp2 end))
    (range_of e1 (if is_none b2 then sp1 else nspan b1)) (range_of e2 (if is_none b2 then sp2 else nspan b2)) _ _
    ltac:(apply Hrange; destruct id1 as [[]|], id2 as [[]|]; cbn in Hid; try contradiction; auto; apply Hid)
    ltac:(apply Hrange; destruct (is_none b2); auto; now apply like_span) A) as [P Q].
  destruct (new_function _ _ _ (cov s1)) as [x1 i1], (new_function _ _ _ (cov s2)) as [x2 i2]. cbn [fst snd] in P, Q. subst i2.
  destruct (is_none b2); [reflexivity|].
  eapply bind_rel; [apply expect_rel, (prepend_like (CF i1) _ _ Hb)|]. intros y1 y2 Hy. split; cbn [fst snd]; [|now apply st_cov].
  apply same_like; [reflexivity|auto|]. repeat (constructor; auto).
Qed.
Lemma enter_exit_rel n a b s1 s2 k1 k2 b1 b2 : S a b -> st_rel s1 s2 ->
  (forall u1 u2, st_rel u1 u2 -> res_rel out_rel (k1 u1) (k2 u2)) ->
  (forall c u1 u2, st_rel u1 u2 -> res_rel out_rel (b1 c u1) (b2 c u2)) ->
  res_rel out_rel (enter_exit e1 n a s1 k1 b1) (enter_exit e2 n b s2 k2 b2).
Proof.
  intros Hsp Hs Hk Hb. unfold enter_exit, on_enter.
  destruct (enter_rel _ _ _ _ Hsp (st_push n _ _ Hs)) as (t1 & t2 & o & c & -> & -> & Ht).
  eapply bind_rel with (R := out_rel).
  - destruct (is_next c); auto.
  - intros [x1 u1] [x2 u2] [P Q]. split; cbn in *; auto. now apply st_exit.
Qed.
Lemma ok_rel t1 t2 s1 s2 : like t1 t2 -> st_rel s1 s2 -> res_rel out_rel (Ok (t1, s1)) (Ok (t2, s2)).
Proof. split; auto. Qed.
Lemma ignored_rel n : is_ignored_method e1 n = is_ignored_method e2 n.
Proof. unfold is_ignored_method. now rewrite Hmeth. Qed.

Lemma expr_stmt_rel v t1 t2 s1 s2 : like t1 t2 -> st_rel s1 s2 ->
  res_rel out_rel (visit_expr_stmt e1 rec1 v t1 s1) (visit_expr_stmt e2 rec2 v t2 s2).
Proof.
  intros H Hs. unfold visit_expr_stmt, on_enter.
  destruct (enter_rel _ _ _ _ (like_span _ _ H) (st_push NExprStmt _ _ Hs)) as (u1 & u2 & o & c & -> & -> & Ht).
  pose proof (like_kids _ _ H) as L. destruct L as [|x1 x2 l1 l2 Hx L]; [reflexivity|]. destruct L; [|reflexivity].
  rewrite (directive_expr_like _ _ Hx), (injected_expr_like _ _ Hx). destruct (is_directive_expr x2); [apply ok_rel; auto using st_exit|].
  eapply bind_rel.
  - apply children_rel; [exact H|]. destruct (is_next c); [exact Ht|]. destruct (is_injected_counter_expr x2); [exact Ht|].
    apply st_mark; auto. now apply like_span.
  - intros [y1 w1] [y2 w2] [P Q]. cbn [fst snd] in *. apply ok_rel; auto. now apply st_exit.
Qed.
Lemma cond_rel v t1 t2 s1 s2 : like t1 t2 -> st_rel s1 s2 ->
  res_rel out_rel (visit_cond_expr e1 rec1 v t1 s1) (visit_cond_expr e2 rec2 v t2 s2).
Proof.
  intros H Hs. apply enter_exit_rel; auto using like_span, children_rel. intros c u1 u2 Hu.
  pose proof (like_kids _ _ H) as L. destruct L as [|x1 x2 l1 l2 Hx L]; [reflexivity|]. destruct L as [|y1 y2 l1 l2 Hy L]; [reflexivity|].
  destruct L as [|z1 z2 l1 l2 Hz L]; [reflexivity|]. destruct L; [|reflexivity].
  destruct (branch_new_rel CondExpr false _ _ _ _ (Hrange _ _ (like_span _ _ H)) (proj1 Hu)) as [P Q].
  destruct (new_branch CondExpr _ _ (cov u1)) as [x i1], (new_branch CondExpr _ _ (cov u2)) as [x' i2]. cbn [fst snd] in P, Q. subst i2.
  apply bind_rel with (R := out_rel).
  { rewrite (Hhint _ _ (like_span _ _ Hy)). destruct (is_next _); [apply ok_rel; auto; now apply st_cov|]. apply branch_counter_rel; auto. now apply st_cov. }
  intros [a1 w1] [a2 w2] [Pa Qa]. cbn [fst snd] in *. apply bind_rel with (R := out_rel).
  { rewrite (Hhint _ _ (like_span _ _ Hz)). destruct (is_next _); [apply ok_rel; auto|]. apply branch_counter_rel; auto. }
  intros [b1 v1] [b2 v2] [Pb Qb]. cbn [fst snd] in *. apply children_rel; auto. apply like_eta; auto. repeat (constructor; auto).
Qed.
Lemma fn_decl_rel v t1 t2 s1 s2 : like t1 t2 -> st_rel s1 s2 ->
  res_rel out_rel (visit_fn_decl e1 rec1 v t1 s1) (visit_fn_decl e2 rec2 v t2 s2).
Proof.
  intros H Hs. unfold visit_fn_decl.
  pose proof (like_kids _ _ H) as L. destruct L as [|x1 x2 l1 l2 Hx L]; [reflexivity|]. destruct L as [|y1 y2 l1 l2 Hy L]; [reflexivity|].
  destruct L; [|reflexivity]. apply enter_exit_rel; auto using like_span, ok_rel. intros c u1 u2 Hu.
  eapply bind_rel; [apply expect_rel, ident_view_like, Hx|]. intros i1 i2 Hi.
  eapply bind_rel; [apply create_fn_rel; [exact Hi|exact Hy|exact Hu]|]. intros [f1 w1] [f2 w2] [P Q]. cbn [fst snd] in *.
  apply children_rel; auto. apply like_eta; auto. repeat (constructor; auto).
Qed.
Lemma fn_expr_rel v t1 t2 s1 s2 : like t1 t2 -> st_rel s1 s2 ->
  res_rel out_rel (visit_fn_expr e1 rec1 v t1 s1) (visit_fn_expr e2 rec2 v t2 s2).
Proof.
  intros H Hs. unfold visit_fn_expr.
  pose proof (like_kids _ _ H) as L. destruct L as [|x1 x2 l1 l2 Hx L]; [reflexivity|]. destruct L as [|y1 y2 l1 l2 Hy L]; [reflexivity|].
  destruct L; [|reflexivity]. apply enter_exit_rel; auto using like_span, ok_rel. intros c u1 u2 Hu. cbv zeta.
  pose proof (ident_view_like _ _ Hx) as Hi.
  replace (match ident_view x1 with Some (name, _) => is_ignored_method e1 name | None => false end)
    with (match ident_view x2 with Some (name, _) => is_ignored_method e2 name | None => false end).
  2:{ destruct (ident_view x1) as [[]|], (ident_view x2) as [[]|]; cbn in Hi; try contradiction; auto. destruct Hi as [Ei _]. cbn in Ei. subst.
      now rewrite ignored_rel. }
  destruct (match ident_view x2 with Some (name, _) => _ | None => _ end); [apply ok_rel; auto|].
  eapply bind_rel; [apply create_fn_rel; [exact Hi|exact Hy|exact Hu]|]. intros [f1 w1] [f2 w2] [P Q]. cbn [fst snd] in *.
  apply children_rel; auto. apply like_eta; auto. repeat (constructor; auto).
Qed.
Lemma class_method_rel v t1 t2 s1 s2 : like t1 t2 -> st_rel s1 s2 ->
  res_rel out_rel (visit_class_method e1 rec1 v t1 s1) (visit_class_method e2 rec2 v t2 s2).
Proof.
  intros H Hs. unfold visit_class_method. apply enter_exit_rel; auto using like_span, ok_rel. intros c u1 u2 Hu.
  pose proof (like_kids _ _ H) as L. destruct L as [|x1 x2 l1 l2 Hx L]; [reflexivity|]. destruct L as [|y1 y2 l1 l2 Hy L]; [reflexivity|].
  destruct L; [|reflexivity]. pose proof (prop_ident_view_like _ _ Hx) as Hi.
  destruct (prop_ident_view x1) as [[n1 i1]|], (prop_ident_view x2) as [[n2 i2]|]; cbn in Hi; try contradiction; [|apply ok_rel; auto].
  pose proof Hi as [En _]. cbn in En. subst n2. rewrite ignored_rel. destruct (is_ignored_method e2 n1); [apply ok_rel; auto|].
  eapply bind_rel; [apply create_fn_rel; [exact Hi|exact Hy|exact Hu]|]. intros [f1 w1] [f2 w2] [P Q]. cbn [fst snd] in *.
  apply children_rel; auto. apply like_eta; auto. repeat (constructor; auto).
Qed.
Lemma method_prop_rel v t1 t2 s1 s2 : like t1 t2 -> st_rel s1 s2 ->
  res_rel out_rel (visit_method_prop e1 rec1 v t1 s1) (visit_method_prop e2 rec2 v t2 s2).
Proof.
  intros H Hs. unfold visit_method_prop.
  pose proof (like_kids _ _ H) as L. destruct L as [|x1 x2 l1 l2 Hx L]; [reflexivity|]. destruct L as [|y1 y2 l1 l2 Hy L]; [reflexivity|].
  destruct L; [|reflexivity]. apply enter_exit_rel; auto using like_span, ok_rel. intros c u1 u2 Hu.
  pose proof (prop_ident_view_like _ _ Hx) as Hi.
  destruct (prop_ident_view x1) as [[n1 i1]|], (prop_ident_view x2) as [[n2 i2]|]; cbn in Hi; try contradiction.
  - pose proof Hi as [En _]. cbn in En. subst n2. rewrite ignored_rel. destruct (is_ignored_method e2 n1); [apply ok_rel; auto|].
    eapply bind_rel; [apply create_fn_rel; [exact Hi|exact Hy|exact Hu]|]. intros [f1 w1] [f2 w2] [P Q]. cbn [fst snd] in *.
    apply children_rel; auto. apply like_eta; auto. repeat (constructor; auto).
  - eapply bind_rel; [apply create_fn_rel; [|exact Hy|exact Hu]; split; auto|]. intros [f1 w1] [f2 w2] [P Q]. cbn [fst snd] in *.
    apply children_rel; auto. apply like_eta; auto. repeat (constructor; auto).
Qed.
Lemma map_last_rel f g : (forall a b, like a b -> res_rel out_rel (f a) (g b)) ->
  forall l1 l2, likes l1 l2 -> res_rel outs_rel (map_last f l1) (map_last g l2).
Proof.
  intros Hf. induction 1 as [|a b l1 l2 H L IH]; [reflexivity|]. cbn [map_last]. destruct L as [|x y m1 m2 Hx L].
  - eapply bind_rel; [apply Hf, H|]. intros [a' u1] [b' u2] [P Q]. split; cbn in *; auto. repeat constructor; auto.
  - eapply bind_rel; [apply IH|]. intros [a' u1] [b' u2] [P Q]. split; cbn in *; auto. constructor; auto.
Qed.
Lemma accessor_body_rel n a b s1 s2 x y : S a b -> st_rel s1 s2 -> like x y ->
  res_rel out_rel (accessor_body e1 n a s1 x) (accessor_body e2 n b s2 y).
Proof.
  intros Hsp Hs H. unfold accessor_body. rewrite (is_none_like _ _ H). destruct (is_none y); [apply ok_rel; auto|].
  destruct (fn_rel (Some n) _ _ _ _ _ _ (Hrange _ _ Hsp) (Hrange _ _ (like_span _ _ H)) (proj1 Hs)) as [P Q].
  destruct (new_function _ _ _ (cov s1)) as [x1 i1], (new_function _ _ _ (cov s2)) as [x2 i2]. cbn [fst snd] in P, Q. subst i2.
  eapply bind_rel; [apply expect_rel, (prepend_like (CF i1) _ _ H)|]. intros y1 y2 Hy. apply ok_rel; auto. now apply st_cov.
Qed.
Lemma accessor_rel n v t1 t2 s1 s2 : like t1 t2 -> st_rel s1 s2 ->
  res_rel out_rel (visit_accessor e1 rec1 n v t1 s1) (visit_accessor e2 rec2 n v t2 s2).
Proof.
  intros H Hs. unfold visit_accessor. apply enter_exit_rel; auto using like_span, ok_rel. intros c u1 u2 Hu. cbv zeta.
  pose proof (like_kids _ _ H) as L.
  assert (Go : forall name a b, S a b ->
    res_rel out_rel (let* (cs, s2) := map_last (accessor_body e1 name a u1) (nkids t1) in visit_children rec1 v (Node (nkind t1) (nspan t1) cs) s2)
      (let* (cs, s2) := map_last (accessor_body e2 name b u2) (nkids t2) in visit_children rec2 v (Node (nkind t2) (nspan t2) cs) s2)).
  { intros name a b Hsp. eapply bind_rel; [apply map_last_rel; [|exact L]; intros; now apply accessor_body_rel|].
    intros [f1 w1] [f2 w2] [P Q]. cbn [fst snd] in *. apply children_rel; auto. now apply like_eta. }
  revert Go. destruct L as [|x1 x2 l1 l2 Hx L]; intros Go; [reflexivity|].
  pose proof (prop_ident_view_like _ _ Hx) as Hi.
  destruct (prop_ident_view x1) as [[n1 i1]|], (prop_ident_view x2) as [[n2 i2]|]; cbn in Hi; try contradiction.
  - destruct Hi as [En Hi]. cbn in En, Hi. subst n2. rewrite ignored_rel. destruct (is_ignored_method e2 n1); [apply ok_rel; auto|]. now apply Go.
  - apply Go. now apply like_span.
Qed.
Lemma arrow_rel v t1 t2 s1 s2 : like t1 t2 -> st_rel s1 s2 ->
  res_rel out_rel (visit_arrow_expr e1 rec1 v t1 s1) (visit_arrow_expr e2 rec2 v t2 s2).
Proof.
  intros H Hs. unfold visit_arrow_expr. apply enter_exit_rel; auto using like_span, ok_rel. intros c u1 u2 Hu.
  pose proof (like_kids _ _ H) as L. destruct L as [|x1 x2 l1 l2 Hx L]; [reflexivity|]. destruct L as [|y1 y2 l1 l2 Hy L]; [reflexivity|].
  destruct L as [|z1 z2 l1 l2 Hz L]; [reflexivity|]. destruct L; [|reflexivity]. cbv zeta.
  destruct (fn_rel None _ _ _ _ _ _ (Hrange _ _ (like_span _ _ H)) (Hrange _ _ (like_span _ _ Hy)) (proj1 Hu)) as [P Q].
  destruct (new_function _ _ _ (cov u1)) as [a1 i1], (new_function _ _ _ (cov u2)) as [a2 i2]. cbn [fst snd] in P, Q. subst i2.
  rewrite (is_expr_like _ _ Hy). destruct (is_expr y2).
  - eapply bind_rel.
    + apply insert_counters_rel; [|now apply st_cov]. constructor; [apply counter_like|]. constructor; [|constructor].
      apply ret_like; auto. now apply like_span.
    + intros [f1 w1] [f2 w2] [P' Q']. cbn [fst snd] in *. apply ok_rel; auto. apply like_eta; auto. repeat (apply mk_like || constructor; auto).
  - eapply bind_rel; [apply expect_rel, block_view_like, Hy|]. intros [[[j1 b1] q1] ss1] [[[j2 b2] q2] ss2] (<- & V1 & V2 & V3).
    eapply bind_rel; [apply insert_counters_rel; [exact V3|now apply st_cov]|]. intros [f1 w1] [f2 w2] [P' Q']. cbn [fst snd] in *.
    apply ok_rel; auto. apply like_eta; auto. repeat (apply same_like || constructor; auto using counter_like).
Qed.
Lemma initialized_rel n v t1 t2 s1 s2 : like t1 t2 -> st_rel s1 s2 ->
  res_rel out_rel (visit_initialized e1 rec1 n v t1 s1) (visit_initialized e2 rec2 n v t2 s2).
Proof.
  intros H Hs. unfold visit_initialized. apply enter_exit_rel; auto using like_span, ok_rel. intros c u1 u2 Hu.
  pose proof (like_kids _ _ H) as L. destruct L as [|x1 x2 l1 l2 Hx L]; [reflexivity|]. destruct L as [|y1 y2 l1 l2 Hy L]; [reflexivity|].
  apply bind_rel with (R := out_rel).
  - rewrite (is_none_like _ _ Hy). destruct (is_none y2); [apply ok_rel; auto|now apply cover_rel].
  - intros [f1 w1] [f2 w2] [P Q]. cbn [fst snd] in *. apply children_rel; auto. apply like_eta; auto. repeat (constructor; auto).
Qed.
Lemma switch_rel t1 t2 s1 s2 : like t1 t2 -> st_rel s1 s2 ->
  res_rel out_rel (visit_switch_stmt e1 rec1 t1 s1) (visit_switch_stmt e2 rec2 t2 s2).
Proof.
  intros H Hs. unfold visit_switch_stmt. apply enter_exit_rel; auto using like_span, ok_rel. intros c u1 u2 Hu. cbv zeta.
  pose proof (st_mark _ _ _ _ (like_span _ _ H) Hu) as Hm.
  destruct (branch_new_rel BSwitch false _ _ _ _ (Hrange _ _ (like_span _ _ H)) (proj1 Hm)) as [P Q].
  destruct (new_branch BSwitch _ _ (cov (mark_prepend_stmt_counter e1 _ u1))) as [x i1], (new_branch BSwitch _ _ (cov (mark_prepend_stmt_counter e2 _ u2))) as [x' i2].
  cbn [fst snd] in P, Q. subst i2.
  eapply bind_rel; [apply children_rel; [exact H|apply st_spawn; apply st_cov; eauto]|]. intros [f1 w1] [f2 w2] [P' Q']. cbn [fst snd] in *.
  apply ok_rel; auto. apply st_cov; [apply Q'|]. now apply st_cov.
Qed.
Lemma case_rel b t1 t2 s1 s2 : like t1 t2 -> st_rel s1 s2 ->
  res_rel out_rel (visit_switch_case e1 rec1 b t1 s1) (visit_switch_case e2 rec2 b t2 s2).
Proof.
  intros H Hs. unfold visit_switch_case. apply enter_exit_rel; auto using like_span, ok_rel. intros c u1 u2 Hu.
  eapply bind_rel; [apply add_path_rel; [exact (Hrange _ _ (like_span _ _ H))|apply Hu]|].
  intros [c1 i1] [c2 i2] [P Q]. cbn [fst snd] in P, Q. subst i2.
  eapply bind_rel; [apply children_rel; [exact H|now apply st_cov]|]. intros [f1 w1] [f2 w2] [P' Q']. cbn [fst snd] in *.
  pose proof (like_kids _ _ P') as L. destruct L as [|x1 x2 l1 l2 Hx L]; [reflexivity|]. destruct L as [|y1 y2 l1 l2 Hy L]; [reflexivity|].
  destruct L; [|reflexivity]. eapply bind_rel; [apply expect_rel, stmts_view_like, Hy|]. intros [q1 ss1] [q2 ss2] [V1 V2]. cbn [fst snd] in *.
  apply ok_rel; auto. apply like_eta; auto. repeat (apply same_like || constructor; auto using counter_like).
Qed.
Lemma wrap_counter_rel b r1 r2 cur a y s1 s2 : G r1 r2 -> like a y -> st_rel s1 s2 ->
  res_rel out_rel (wrap_with_counter e1 rec1 b r1 cur a s1) (wrap_with_counter e2 rec2 b r2 cur y s2).
Proof.
  intros Hg H Hs. unfold wrap_with_counter.
  eapply bind_rel; [apply add_path_rel; [exact Hg|apply Hs]|]. intros [c1 i1] [c2 i2] [P Q]. cbn [fst snd] in P, Q. subst i2. cbv zeta.
  eapply bind_rel; [apply expect_rel, stmt_view_like, H|]. intros [x1 n1] [x2 n2] [V1 V2]. cbn [fst snd] in *.
  rewrite (is_block_like _ _ V2). destruct (is_block n2).
  - eapply bind_rel; [apply expect_rel, block_view_like, V2|]. intros [[[j1 b1] q1] ss1] [[[j2 b2] q2] ss2] (<- & W1 & W2 & W3).
    eapply bind_rel; [apply insert_counters_rel; [exact W3|now apply st_cov]|]. intros [f1 w1] [f2 w2] [P' Q']. cbn [fst snd] in *.
    apply ok_rel; auto. repeat (apply same_like || constructor; auto using counter_like).
  - eapply bind_rel; [apply Hrec; [exact H|apply st_spawn; apply st_cov; eauto]|]. intros [f1 w1] [f2 w2] [P' Q']. cbn [fst snd] in *.
    apply ok_rel; [|apply st_cov; [apply Q'|now apply st_cov]].
    repeat (apply mk_like; [reflexivity|constructor; [|constructor]]). apply mk_like; [reflexivity|]. constructor; [apply counter_like|]. apply likes_app; [apply Q'|]. repeat constructor; auto.
Qed.
Lemma if_rel v t1 t2 s1 s2 : like t1 t2 -> st_rel s1 s2 ->
  res_rel out_rel (visit_if_stmt e1 rec1 v t1 s1) (visit_if_stmt e2 rec2 v t2 s2).
Proof.
  intros H Hs. unfold visit_if_stmt. apply enter_exit_rel; auto using like_span, ok_rel. intros c u1 u2 Hu.
  pose proof (like_kids _ _ H) as L. destruct L as [|x1 x2 l1 l2 Hx L]; [reflexivity|]. destruct L as [|y1 y2 l1 l2 Hy L]; [reflexivity|].
  destruct L as [|z1 z2 l1 l2 Hz L]; [reflexivity|]. destruct L; [|reflexivity]. cbv zeta.
  pose proof (st_mark _ _ _ _ (like_span _ _ H) Hu) as Hm. pose proof (Hrange _ _ (like_span _ _ H)) as Hg.
  destruct (branch_new_rel BIf false _ _ _ _ Hg (proj1 Hm)) as [P Q].
  destruct (new_branch BIf _ _ (cov (mark_prepend_stmt_counter e1 _ u1))) as [x i1], (new_branch BIf _ _ (cov (mark_prepend_stmt_counter e2 _ u2))) as [x' i2].
  cbn [fst snd] in P, Q. subst i2.
  apply bind_rel with (R := out_rel).
  { destruct c as [[]|]; try (apply ok_rel; auto; now apply st_cov); apply wrap_counter_rel; auto; now apply st_cov. }
  intros [a1 w1] [a2 w2] [Pa Qa]. cbn [fst snd] in *. rewrite (is_absent_like _ _ Hz).
  assert (Hz' : like (if is_absent z2 then mk KStmt [mk (KBlock true) [mk KStmts []]] else z1)
     (if is_absent z2 then mk KStmt [mk (KBlock true) [mk KStmts []]] else z2)).
  { destruct (is_absent z2); auto. repeat (apply mk_like || constructor; auto). }
  apply bind_rel with (R := out_rel).
  { destruct c as [[]|]; try (apply ok_rel; auto; fail); apply wrap_counter_rel; auto. }
  intros [b1 v1] [b2 v2] [Pb Qb]. cbn [fst snd] in *. eapply bind_rel; [apply Hrec; eauto|].
  intros [d1 m1] [d2 m2] [Pd Qd]. cbn [fst snd] in *. apply ok_rel; auto. apply like_eta; auto. repeat (constructor; auto).
Qed.
Lemma bin_rel v op f g t1 t2 s1 s2 : (forall u1 u2, st_rel u1 u2 -> st_rel (fst (f u1)) (fst (g u2)) /\ snd (f u1) = snd (g u2)) ->
  like t1 t2 -> st_rel s1 s2 -> res_rel out_rel (visit_bin_expr e1 rec1 v op f t1 s1) (visit_bin_expr e2 rec2 v op g t2 s2).
Proof.
  intros Hf H Hs. unfold visit_bin_expr.
  destruct (enter_rel _ _ _ _ (like_span _ _ H) Hs) as (u1 & u2 & o & c & -> & -> & Ht).
  assert (Dflt : res_rel out_rel (let* (t', s2) := visit_children rec1 v t1 (push NBinExpr u1) in Ok (t', on_exit o s2))
    (let* (t', s2) := visit_children rec2 v t2 (push NBinExpr u2) in Ok (t', on_exit o s2))).
  { eapply bind_rel; [apply children_rel; [exact H|now apply st_push]|]. intros [f1 w1] [f2 w2] [P' Q']. cbn [fst snd] in *. apply ok_rel; auto using st_exit. }
  destruct (is_next c); [exact Dflt|]. destruct (is_logical_op op); [|exact Dflt].
  pose proof (like_kids _ _ H) as L. destruct L as [|x1 x2 l1 l2 Hx L]; [reflexivity|]. destruct L as [|y1 y2 l1 l2 Hy L]; [reflexivity|].
  destruct L; [|reflexivity]. destruct (Hf _ _ (st_push NLogicalExpr _ _ Ht)) as [P Q].
  destruct (f (push NLogicalExpr u1)) as [a1 i1], (g (push NLogicalExpr u2)) as [a2 i2]. cbn [fst snd] in P, Q. subst i2.
  eapply bind_rel; [apply wrap_bin_rel; eauto|]. intros [f1 w1] [f2 w2] [P' Q']. cbn [fst snd] in *.
  eapply bind_rel; [apply wrap_bin_rel; eauto|]. intros [h1 m1] [h2 m2] [P2 Q2]. cbn [fst snd] in *.
  apply ok_rel; auto. apply like_eta; auto. repeat (constructor; auto).
Qed.
Lemma new_logical_rel a b : S a b -> forall u1 u2, st_rel u1 u2 ->
  st_rel (fst (new_logical_branch e1 a u1)) (fst (new_logical_branch e2 b u2)) /\ snd (new_logical_branch e1 a u1) = snd (new_logical_branch e2 b u2).
Proof.
  intros Hsp u1 u2 Hu. unfold new_logical_branch. rewrite Hlogic.
  destruct (branch_new_rel BinaryExpr (e_report_logic e2) _ _ _ _ (Hrange _ _ Hsp) (proj1 Hu)) as [P Q].
  destruct (new_branch BinaryExpr _ _ (cov u1)) as [x i1], (new_branch BinaryExpr _ _ (cov u2)) as [x' i2]. cbn [fst snd] in *. subst i2.
  split; auto. now apply st_cov.
Qed.
Lemma assign_pat_rel v t1 t2 s1 s2 : like t1 t2 -> st_rel s1 s2 ->
  res_rel out_rel (visit_assign_pat e1 rec1 v t1 s1) (visit_assign_pat e2 rec2 v t2 s2).
Proof.
  intros H Hs. unfold visit_assign_pat. apply enter_exit_rel; auto using like_span, ok_rel. intros c u1 u2 Hu.
  pose proof (like_kids _ _ H) as L. destruct L as [|x1 x2 l1 l2 Hx L]; [reflexivity|]. destruct L as [|y1 y2 l1 l2 Hy L]; [reflexivity|].
  destruct L; [|reflexivity].
  destruct (branch_new_rel DefaultArg false _ _ _ _ (Hrange _ _ (like_span _ _ H)) (proj1 Hu)) as [P Q].
  destruct (new_branch DefaultArg _ _ (cov u1)) as [x i1], (new_branch DefaultArg _ _ (cov u2)) as [x' i2]. cbn [fst snd] in *. subst i2.
  eapply bind_rel; [apply wrap_bin_rel; [exact Hy|now apply st_cov]|]. intros [f1 w1] [f2 w2] [P' Q']. cbn [fst snd] in *.
  apply ok_rel; auto. apply like_eta; auto. repeat (constructor; auto).
Qed.
Lemma with_rel v t1 t2 s1 s2 : like t1 t2 -> st_rel s1 s2 ->
  res_rel out_rel (visit_with_stmt e1 rec1 v t1 s1) (visit_with_stmt e2 rec2 v t2 s2).
Proof.
  intros H Hs. unfold visit_with_stmt. apply enter_exit_rel; auto using like_span, ok_rel. intros c u1 u2 Hu. cbv zeta.
  pose proof (st_mark _ _ _ _ (like_span _ _ H) Hu) as Hm.
  pose proof (like_kids _ _ H) as L. destruct L as [|x1 x2 l1 l2 Hx L]; [reflexivity|]. destruct L as [|y1 y2 l1 l2 Hy L]; [reflexivity|].
  destruct L; [|reflexivity].
  eapply bind_rel; [apply expect_rel, stmt_view_like, Hy|]. intros [q1 n1] [q2 n2] [V1 V2]. cbn [fst snd] in *.
  rewrite (is_block_like _ _ V2). destruct (is_block n2).
  - eapply bind_rel; [apply expect_rel, block_view_like, V2|]. intros [[[j1 b1] p1] ss1] [[[j2 b2] p2] ss2] (<- & W1 & W2 & W3).
    eapply bind_rel; [apply insert_counters_rel; [exact W3|exact Hm]|]. intros [f1 w1] [f2 w2] [P' Q']. cbn [fst snd] in *.
    apply ok_rel; auto. apply like_eta; auto. repeat (apply same_like || constructor; auto).
  - eapply bind_rel; [apply Hrec; [exact Hy|apply st_spawn, Hm]|]. intros [f1 w1] [f2 w2] [P' Q']. cbn [fst snd] in *.
    apply ok_rel; [|apply st_cov; [apply Q'|exact Hm]]. apply like_eta; auto. constructor; auto. constructor; [|constructor].
    repeat (apply mk_like; [reflexivity|constructor; [|constructor]]). apply mk_like; [reflexivity|]. apply likes_app; [apply Q'|]. repeat constructor; auto.
Qed.
Lemma stmts_rel t1 t2 s1 s2 : like t1 t2 -> st_rel s1 s2 ->
  res_rel out_rel (visit_stmts e1 rec1 t1 s1) (visit_stmts e2 rec2 t2 s2).
Proof.
  intros H Hs. unfold visit_stmts. eapply bind_rel; [apply insert_counters_rel; [apply like_kids, H|now apply st_push]|].
  intros [f1 w1] [f2 w2] [P' Q']. cbn [fst snd] in *. apply ok_rel; [now apply like_eta|now apply st_pop].
Qed.
Lemma items_rel l1 l2 : likes l1 l2 -> forall s1 s2, st_rel s1 s2 ->
  res_rel outs_rel (visit_items e1 rec1 l1 s1) (visit_items e2 rec2 l2 s2).
Proof.
  induction 1 as [|a b l1 l2 H L IH]; intros s1 s2 Hs; cbn [visit_items].
  - split; [constructor|exact Hs].
  - apply bind_rel with (R := outs_rel).
    + rewrite (directive_continue_like _ _ H). destruct (directive_continue b).
      * split; cbn; auto. repeat constructor; auto.
      * cbv zeta. replace (match nkind a with KModuleDecl => NModuleDecl | _ => NStmt end) with (match nkind b with KModuleDecl => NModuleDecl | _ => NStmt end)
          by (now destruct (like_kind _ _ H)).
        unfold on_enter. destruct (enter_rel _ _ _ _ (like_span _ _ H) (st_push (match nkind b with KModuleDecl => NModuleDecl | _ => NStmt end) _ _ Hs)) as (t1 & t2 & o & c & -> & -> & Ht).
        eapply bind_rel.
        -- apply children_rel; [exact H|]. pose proof (export_const_like _ _ H) as V.
           destruct (export_const_span a) as [q1|], (export_const_span b) as [q2|]; cbn in V; try contradiction; [|exact Ht]. apply st_mark; [exact V|exact Ht].
        -- intros [a' u1] [b' u2] [P Q]. cbn [fst snd] in P, Q. split; cbn [fst snd].
           { apply likes_app; [apply Q|]. repeat constructor; auto. } apply st_exit, st_clear, Q.
    + intros [n1 u1] [n2 u2] [P Q]. cbn [fst snd] in P, Q. eapply bind_rel; [apply IH; eauto|].
      intros [r1 w1] [r2 w2] [P' Q']. cbn [fst snd] in P', Q'. split; cbn [fst snd]; auto. now apply likes_app.
Qed.
Lemma templates_rel s1 s2 : st_rel s1 s2 -> exists a b c u1 u2, get_coverage_templates s1 = (a, c, u1) /\ get_coverage_templates s2 = (b, c, u2) /\
  like a b /\ like c c /\ st_rel u1 u2.
Proof.
  intros H. unfold get_coverage_templates. eexists _, _, _, _, _. split; [reflexivity|]. split; [reflexivity|].
  pose proof (freeze_rel _ _ (proj1 H)) as F. split; [|split].
  - apply mk_like; [reflexivity|]. constructor; [|constructor]. constructor; [|exact S0|constructor]. constructor. apply F.
  - repeat (apply mk_like || constructor; auto).
  - now apply st_cov.
Qed.
Lemma module_items_rel t1 t2 s1 s2 : like t1 t2 -> st_rel s1 s2 ->
  res_rel out_rel (visit_module_items e1 rec1 t1 s1) (visit_module_items e2 rec2 t2 s2).
Proof.
  intros H Hs. unfold visit_module_items. pose proof Hs as (A & B & C & D). cbv zeta. rewrite C.
  destruct (match rev (stack s2) with NProgram :: _ => true | _ => false end).
  - eapply bind_rel; [apply items_rel; [apply like_kids, H|exact Hs]|]. intros [f1 w1] [f2 w2] [P' Q']. cbn [fst snd] in *.
    destruct (templates_rel _ _ Q') as (a & b & c & u1 & u2 & -> & -> & Ha & Hc & Hu). apply ok_rel; auto. apply like_eta; auto.
    destruct P'; repeat (constructor; auto).
  - eapply bind_rel; [apply items_rel; [apply like_kids, H|]; split; [exact A|split; [exact B|split; [reflexivity|exact D]]]|]. intros [f1 w1] [f2 w2] [P' Q']. cbn [fst snd] in *.
    destruct (templates_rel _ _ Q') as (a & b & c & u1 & u2 & -> & -> & Ha & Hc & Hu). apply ok_rel; [|now apply st_pop]. apply like_eta; auto.
    destruct P'; repeat (constructor; auto).
Qed.
Lemma script_items_rel l1 l2 : likes l1 l2 -> forall s1 s2, st_rel s1 s2 ->
  res_rel outs_rel (visit_script_items rec1 l1 s1) (visit_script_items rec2 l2 s2).
Proof.
  induction 1 as [|a b l1 l2 H L IH]; intros s1 s2 Hs; cbn [visit_script_items].
  - split; [constructor|exact Hs].
  - eapply bind_rel; [apply children_rel; eauto|]. intros [a' u1] [b' u2] [P Q]. cbn [fst snd] in P, Q.
    eapply bind_rel; [apply IH, st_clear, Q|]. intros [l1' w1] [l2' w2] [P' Q']. cbn [fst snd] in P', Q'.
    split; cbn; auto. apply likes_app; [apply Q|]. constructor; auto.
Qed.
Lemma script_rel t1 t2 s1 s2 : like t1 t2 -> st_rel s1 s2 ->
  res_rel out_rel (visit_script rec1 t1 s1) (visit_script rec2 t2 s2).
Proof.
  intros H Hs. unfold visit_script.
  pose proof (like_kids _ _ H) as L. destruct L as [|x1 x2 l1 l2 Hx L]; [reflexivity|]. destruct L; [|reflexivity].
  eapply bind_rel; [apply expect_rel, stmts_view_like, Hx|]. intros [q1 ss1] [q2 ss2] [V1 V2]. cbn [fst snd] in *.
  eapply bind_rel; [apply script_items_rel; eauto|]. intros [f1 w1] [f2 w2] [P' Q']. cbn [fst snd] in *.
  destruct (templates_rel _ _ Q') as (a & b & c & u1 & u2 & -> & -> & Ha & Hc & Hu). apply ok_rel; auto. apply like_eta; auto.
  constructor; [|constructor]. apply same_like; [reflexivity|auto|]. repeat (constructor; auto).
Qed.
Lemma skip_rel n a b v t1 t2 s1 s2 : S a b -> like t1 t2 -> st_rel s1 s2 ->
  res_rel out_rel (visit_skip e1 rec1 n a v t1 s1) (visit_skip e2 rec2 n b v t2 s2).
Proof. intros. apply enter_exit_rel; auto using ok_rel, children_rel. Qed.
Lemma marked_rel n v t1 t2 s1 s2 : like t1 t2 -> st_rel s1 s2 ->
  res_rel out_rel (visit_marked e1 rec1 n v t1 s1) (visit_marked e2 rec2 n v t2 s2).
Proof. intros H Hs. apply enter_exit_rel; auto using like_span, children_rel. intros. apply children_rel; auto. apply st_mark; auto using like_span. Qed.
Lemma marked_skip_rel n v t1 t2 s1 s2 : like t1 t2 -> st_rel s1 s2 ->
  res_rel out_rel (visit_marked_skip e1 rec1 n v t1 s1) (visit_marked_skip e2 rec2 n v t2 s2).
Proof. intros H Hs. apply enter_exit_rel; auto using like_span, ok_rel. intros. apply children_rel; auto. apply st_mark; auto using like_span. Qed.
Lemma for_like_rel n v t1 t2 s1 s2 : like t1 t2 -> st_rel s1 s2 ->
  res_rel out_rel (visit_for_like e1 rec1 n v t1 s1) (visit_for_like e2 rec2 n v t2 s2).
Proof.
  intros H Hs. apply enter_exit_rel; auto using like_span, ok_rel. intros c u1 u2 Hu. cbv zeta.
  eapply bind_rel; [apply expect_rel, block_last_like, like_kids, H|]. intros l1 l2 L.
  apply children_rel; [now apply like_eta|]. apply st_mark; auto using like_span.
Qed.
Lemma logical_rel b t1 t2 s1 s2 : like t1 t2 -> st_rel s1 s2 ->
  res_rel out_rel (visit_logical e1 rec1 b t1 s1) (visit_logical e2 rec2 b t2 s2).
Proof.
  intros H Hs. unfold visit_logical. pose proof (like_kind _ _ H) as K. destruct K as [k|]; [|now apply children_rel].
  destruct k; try (now apply children_rel).
  - unfold on_enter. destruct (enter_rel _ _ _ _ (like_span _ _ H) (st_push NExpr _ _ Hs)) as (u1 & u2 & o & c & -> & -> & Ht).
    eapply bind_rel; [apply children_rel; eauto|]. intros [f1 w1] [f2 w2] [P' Q']. cbn [fst snd] in *. apply ok_rel; auto using st_exit.
  - apply bin_rel; auto.
Qed.
Lemma instr_rel v t1 t2 s1 s2 : like t1 t2 -> st_rel s1 s2 ->
  res_rel out_rel (visit_instr e1 rec1 v t1 s1) (visit_instr e2 rec2 v t2 s2).
Proof.
  intros H Hs. unfold visit_instr. pose proof (like_kind _ _ H) as K. destruct K as [k|]; [|now apply children_rel].
  destruct k; try (now apply children_rel);
    auto using skip_rel, like_span, stmts_rel, fn_decl_rel, fn_expr_rel, arrow_rel, expr_stmt_rel, marked_rel, marked_skip_rel, cond_rel,
      initialized_rel, class_method_rel, method_prop_rel, accessor_rel, for_like_rel, switch_rel, if_rel, with_rel, assign_pat_rel, ok_rel.
  - destruct v; auto using children_rel, script_rel.
  - destruct v; auto using children_rel, module_items_rel.
  - destruct v; auto using children_rel, skip_rel, like_span.
  - destruct v; auto using children_rel, skip_rel, like_span.
  - destruct v; auto using children_rel, skip_rel, like_span.
  - destruct v; auto using children_rel, case_rel.
  - apply enter_exit_rel; auto using like_span, children_rel.
  - pose proof (like_kids _ _ H) as L. destruct L as [|x1 x2 l1 l2 Hx L]; [reflexivity|]. destruct L as [|y1 y2 l1 l2 Hy L]; [reflexivity|].
    destruct L; [|reflexivity]. apply skip_rel; auto using like_span.
  - apply bin_rel; auto. apply new_logical_rel. now apply like_span.
Qed.
Lemma body_rel v t1 t2 s1 s2 : like t1 t2 -> st_rel s1 s2 ->
  res_rel out_rel (visit_body e1 rec1 v t1 s1) (visit_body e2 rec2 v t2 s2).
Proof. intros. unfold visit_body. destruct v; auto using instr_rel, logical_rel. Qed.
End Step.

Lemma visit_rel n : forall v t1 t2 s1 s2, like t1 t2 -> st_rel s1 s2 -> res_rel out_rel (visit e1 n v t1 s1) (visit e2 n v t2 s2).
Proof. induction n as [|n IH]; intros; cbn [visit]; [exact I|]. apply body_rel; auto. Qed.

Lemma init_rel : st_rel (init_state e1 path1 ism1) (init_state e2 path2 ism2).
Proof.
  split; [|split; [constructor|split; reflexivity]]. split; [|auto]. constructor; cbn; auto. now rewrite Hlogic.
Qed.
Theorem instrument_rel : forall n t1 t2, like t1 t2 ->
  should_ignore_file (e_word e1) (e_comments e1) (nspan t1) = should_ignore_file (e_word e2) (e_comments e2) (nspan t2) ->
  res_rel (fun a b => like (fst a) (fst b) /\ sc_rel (snd a) (snd b)) (instrument e1 n path1 ism1 t1) (instrument e2 n path2 ism2 t2).
Proof.
  intros n t1 t2 H Hf. unfold instrument, visit_program. rewrite Hf. pose proof (st_push NProgram _ _ init_rel) as Hi.
  destruct (should_ignore_file _ _ (nspan t2)).
  - split; cbn [fst snd]; [exact H|apply Hi].
  - destruct (visit e1 n VCov t1 _) as [[x1 u1]|r1|] eqn:E1, (visit e2 n VCov t2 _) as [[x2 u2]|r2|] eqn:E2;
      pose proof (visit_rel n VCov t1 t2 _ _ H Hi) as V; rewrite E1, E2 in V; cbn in V; try contradiction; cbn; auto.
    destruct V as [V1 V2]. split; [exact V1|apply V2].
Qed.
End Rel.

(** ** The exact difference *)
Fixpoint all_spans (t : node) : list span := match t with Node _ sp cs => sp :: flat_map all_spans cs end.
Definition no_template (t : node) : Prop := occurs is_template t = false.

Section Move.
(** What happens to spans, ranges and line numbers; the new file name and source map *)
Context (phi : span -> span) (mv : range -> range) (lm : N -> N) (path : string) (ism : option source_map).
Definition move_func (f : func) : func := mkFunc (f_name f) (mv (f_decl f)) (mv (f_loc f)) (lm (f_line f)).
Definition move_branch (b : branch) : branch :=
  mkBranch (option_map mv (b_loc b)) (b_type b) (map mv (b_locations b)) (option_map lm (b_line b)).
Definition move_rows {A} (f : A -> A) (m : imap N A) : imap N A := map (fun p => (fst p, f (snd p))) m.
(** A record with the same ids, names, kinds and counts and moved locations *)
Definition move_record (fc : file_coverage) : file_coverage :=
  mkFC (fc_all fc) path (move_rows mv (fc_statement_map fc)) (move_rows move_func (fc_fn_map fc))
    (move_rows move_branch (fc_branch_map fc)) (fc_s fc) (fc_f fc) (fc_b fc) (fc_b_t fc) ism.
Definition move_cov (c : source_cov) : source_cov := mkSC (move_record (sc_fc c)) (sc_s c) (sc_f c) (sc_b c).
(** A tree with the same nodes at other places; an embedded record is moved as well *)
Fixpoint move (t : node) : node :=
  match t with
  | Node k sp cs => Node (match k with KTemplateFn fc => KTemplateFn (move_record fc) | _ => k end) (phi sp) (map move cs)
  end.
Definition move_out (r : res (node * source_cov)) : res (node * source_cov) :=
  match r with Ok (t, c) => Ok (move t, move_cov c) | Panic x => Panic x | OutOfFuel => OutOfFuel end.
End Move.
(** Same tree, other spans *)
Fixpoint relayout (phi : span -> span) (t : node) : node :=
  match t with Node k sp cs => Node k (phi sp) (map (relayout phi) cs) end.

Section Exact.
Context (phi : span -> span) (mv : range -> range) (lm : N -> N) (path1 path2 : string) (ism1 ism2 : option source_map).
Context (used : list span).
Hypothesis Hlm : forall r, line (rstart (mv r)) = lm (line (rstart r)).
Local Definition Sm (a b : span) : Prop := b = phi a /\ In a used.
Local Definition Gm (a b : range) : Prop := b = mv a.
Lemma line_move a b : line_rel Gm a b -> b = lm a.
Proof. intros (r1 & r2 & -> & -> & ->). apply Hlm. Qed.
Lemma rows_move {A} (R : A -> A -> Prop) f (m1 m2 : list (N * A)) : (forall a b, R a b -> b = f a) ->
  Forall2 (row_rel R) m1 m2 -> m2 = move_rows f m1.
Proof.
  intros H. induction 1 as [|[k1 a] [k2 b] m1 m2 [E Ra] _ IH]; [reflexivity|]. cbn in E, Ra. subst k2. cbn.
  unfold move_rows in IH. rewrite <- IH, (H _ _ Ra). reflexivity.
Qed.
Lemma func_move a b : func_rel Gm a b -> b = move_func mv lm a.
Proof. destruct a, b. unfold func_rel, move_func. cbn. intros (-> & -> & -> & L). now rewrite (line_move _ _ L). Qed.
Lemma branch_move a b : branch_rel Gm a b -> b = move_branch mv lm a.
Proof.
  destruct a as [l1 t1 ls1 n1], b as [l2 t2 ls2 n2]. unfold branch_rel, move_branch. cbn. intros (A & <- & F & L). f_equal.
  - destruct l1, l2; cbn in A |- *; try contradiction; [now rewrite A|reflexivity].
  - induction F as [|x y ls1 ls2 E F IH]; cbn; [reflexivity|]. now rewrite E, <- IH.
  - destruct n1, n2; cbn in L |- *; try contradiction; auto. now rewrite (line_move _ _ L).
Qed.
Lemma record_move a b : fc_rel Gm path1 path2 ism1 ism2 a b -> b = move_record mv lm path2 ism2 a.
Proof.
  intros [_ [E1 E2] A B C D E F X Y]. destruct b. cbn in *. unfold move_record. rewrite A, E, F, X, Y, E1, E2.
  apply (rows_move _ mv) in B; [|auto]. apply (rows_move _ (move_func mv lm)) in C; [|apply func_move].
  apply (rows_move _ (move_branch mv lm)) in D; [|apply branch_move]. now rewrite B, C, D.
Qed.
Lemma like_move_all :
  (forall a b, like Sm Gm path1 path2 ism1 ism2 a b -> b = move phi mv lm path2 ism2 a) /\
  (forall a b, likes Sm Gm path1 path2 ism1 ism2 a b -> b = map (move phi mv lm path2 ism2) a).
Proof.
  apply like_all_ind.
  - intros k1 k2 sp1 sp2 c1 c2 K [-> _] _ ->. cbn [move]. f_equal. destruct K as [k T|a b F].
    + destruct k; try reflexivity. discriminate T.
    + f_equal. now apply record_move.
  - reflexivity.
  - intros a b l1 l2 _ -> _ ->. reflexivity.
Qed.
Lemma relayout_like : forall t, no_template t -> (forall sp, In sp (all_spans t) -> In sp used) ->
  like Sm Gm path1 path2 ism1 ism2 t (relayout phi t).
Proof.
  fix IH 1. intros [k sp cs] T U. cbn [relayout]. unfold no_template in T. cbn [occurs] in T. apply orb_false_iff in T as [Tk Tc].
  constructor; [now constructor|split; [reflexivity|apply U; now left]|].
  cbn [all_spans] in U. assert (U' : forall sp, In sp (flat_map all_spans cs) -> In sp used) by (intros; apply U; now right). clear U.
  revert Tc U'. induction cs as [|c cs IHc]; intros Tc U; [constructor|]. cbn [map existsb] in *. apply orb_false_iff in Tc as [T1 T2]. constructor.
  - apply IH; [exact T1|]. intros x Hx. apply U. cbn. apply in_or_app. now left.
  - apply IHc; [exact T2|]. intros x Hx. apply U. cbn. apply in_or_app. now right.
Qed.
End Exact.

(** ** C53 *)
(** The same tree at other positions, with corresponding hints: the output and the record are those of the first program
    with every location moved, and a panic stays the same panic. *)
Theorem layout_independent : forall e1 e2 phi mv lm n path1 path2 ism1 ism2 t,
  no_template t -> phi dummy_span = dummy_span ->
  (forall r, line (rstart (mv r)) = lm (line (rstart r))) ->
  (forall sp, In sp (dummy_span :: all_spans t) -> hint e2 (phi sp) = hint e1 sp /\ range_of e2 (phi sp) = mv (range_of e1 sp)) ->
  should_ignore_file (e_word e2) (e_comments e2) (phi (nspan t)) = should_ignore_file (e_word e1) (e_comments e1) (nspan t) ->
  e_report_logic e2 = e_report_logic e1 -> e_ignore_methods e2 = e_ignore_methods e1 ->
  instrument e2 n path2 ism2 (relayout phi t) = move_out phi mv lm path2 ism2 (instrument e1 n path1 ism1 t).
Proof.
  intros e1 e2 phi mv lm n path1 path2 ism1 ism2 t T D Hlm Hh Hf Hl Hm.
  set (used := dummy_span :: all_spans t) in *.
  assert (HL : like (Sm phi used) (Gm mv) path1 path2 ism1 ism2 t (relayout phi t)) by (apply relayout_like; [exact T|intros; now right]).
  assert (Hspan : nspan (relayout phi t) = phi (nspan t)) by (now destruct t).
  pose proof (instrument_rel (Sm phi used) (Gm mv) path1 path2 ism1 ism2 ltac:(split; [now rewrite D|now left]) e1 e2
    ltac:(intros a b [-> I]; now destruct (Hh a I)) ltac:(intros a b [-> I]; red; now destruct (Hh a I)) (eq_sym Hl) (eq_sym Hm) n t
    (relayout phi t) HL ltac:(rewrite Hspan; now symmetry)) as R.
  destruct (instrument e1 n path1 ism1 t) as [[o1 c1]|r1|], (instrument e2 n path2 ism2 (relayout phi t)) as [[o2 c2]|r2|]; cbn in R; try contradiction.
  - destruct R as [Rn (Rc & E1 & E2 & E3)]. cbn [move_out].
    rewrite (proj1 (like_move_all phi mv lm path1 path2 ism1 ism2 used Hlm) _ _ Rn). unfold move_cov. destruct c2. cbn in *.
    now rewrite (record_move mv lm path1 path2 ism1 ism2 Hlm _ _ Rc), E1, E2, E3.
  - cbn. now rewrite R.
  - reflexivity.
Qed.

Lemma relayout_id t : relayout (fun sp => sp) t = t.
Proof.
  revert t. fix IH 1. intros [k sp cs]. cbn. f_equal. induction cs as [|c cs IHc]; cbn; [reflexivity|]. now rewrite IH, IHc.
Qed.
Lemma rows_id {A} (f : A -> A) m : (forall a, f a = a) -> move_rows f m = m.
Proof. intros H. unfold move_rows. induction m as [|[k a] m IH]; cbn; [reflexivity|]. now rewrite H, IH. Qed.
Definition id_span (sp : span) := sp.
Definition id_range (r : range) := r.
Definition id_line (l : N) := l.
Lemma move_func_id f : move_func id_range id_line f = f.
Proof. now destruct f. Qed.
Lemma move_branch_id b : move_branch id_range id_line b = b.
Proof. destruct b as [[] ? ? []]; unfold move_branch; cbn; f_equal; apply map_id. Qed.
(** A record with another name and source map *)
Definition retitle (path : string) (ism : option source_map) (fc : file_coverage) : file_coverage :=
  mkFC (fc_all fc) path (fc_statement_map fc) (fc_fn_map fc) (fc_branch_map fc) (fc_s fc) (fc_f fc) (fc_b fc) (fc_b_t fc) ism.
Fixpoint retitle_tree (path : string) (ism : option source_map) (t : node) : node :=
  match t with
  | Node k sp cs => Node (match k with KTemplateFn fc => KTemplateFn (retitle path ism fc) | _ => k end) sp (map (retitle_tree path ism) cs)
  end.
Lemma move_record_id path ism fc : move_record id_range id_line path ism fc = retitle path ism fc.
Proof. unfold move_record, retitle. rewrite !rows_id; auto using move_func_id, move_branch_id. Qed.
Lemma move_id path ism t : move id_span id_range id_line path ism t = retitle_tree path ism t.
Proof.
  revert t. fix IH 1. intros [k sp cs]. cbn. f_equal.
  - destruct k; try reflexivity. f_equal. apply move_record_id.
  - induction cs as [|c cs IHc]; cbn; [reflexivity|]. now rewrite IH, IHc.
Qed.

(** The file name and the input source map only appear in the record: instrumenting the same program under another name
    gives the same output with the name replaced. *)
Theorem name_only_in_record : forall e n path1 path2 ism1 ism2 t, no_template t ->
  instrument e n path2 ism2 t =
  match instrument e n path1 ism1 t with
  | Ok (o, c) => Ok (retitle_tree path2 ism2 o, mkSC (retitle path2 ism2 (sc_fc c)) (sc_s c) (sc_f c) (sc_b c))
  | Panic r => Panic r
  | OutOfFuel => OutOfFuel
  end.
Proof.
  intros e n path1 path2 ism1 ism2 t T.
  pose proof (layout_independent e e id_span id_range id_line n path1 path2 ism1 ism2 t T eq_refl (fun _ => eq_refl)
    (fun _ _ => conj eq_refl eq_refl) eq_refl eq_refl eq_refl) as H.
  unfold id_span in H at 1. rewrite relayout_id in H. rewrite H. destruct (instrument e n path1 ism1 t) as [[o c]|r|]; cbn [move_out]; auto.
  unfold move_cov. now rewrite move_id, move_record_id.
Qed.

(** Comments that are no hints have no influence at all: two programs that differ only in their comments and give the same
    hints at every node are instrumented alike. *)
Theorem comments_only_hints : forall e1 e2 n path ism t, no_template t ->
  (forall p, e_lookup e2 p = e_lookup e1 p) -> e_report_logic e2 = e_report_logic e1 -> e_ignore_methods e2 = e_ignore_methods e1 ->
  (forall sp, In sp (dummy_span :: all_spans t) -> hint e2 sp = hint e1 sp) ->
  should_ignore_file (e_word e2) (e_comments e2) (nspan t) = should_ignore_file (e_word e1) (e_comments e1) (nspan t) ->
  instrument e2 n path ism t = instrument e1 n path ism t.
Proof.
  intros e1 e2 n path ism t T Hlk Hl Hm Hh Hf.
  assert (H1 : instrument e2 n path ism t = move_out id_span id_range id_line path ism (instrument e1 n path ism t)).
  { rewrite <- (relayout_id t) at 1. apply (layout_independent e1 e2 id_span id_range id_line); auto.
    intros sp I. split; [now apply Hh|]. unfold range_of, get_range_from_span, id_span, id_range. now rewrite !Hlk. }
  assert (H2 : instrument e1 n path ism t = move_out id_span id_range id_line path ism (instrument e1 n path ism t)).
  { rewrite <- (relayout_id t) at 1. apply (layout_independent e1 e1 id_span id_range id_line); auto. }
  now rewrite H1, <- H2.
Qed.

(** A program without hints is instrumented as if it had no comments. *)
Corollary no_hints_no_comments : forall e n path ism t, no_template t ->
  (forall sp, In sp (dummy_span :: all_spans t) -> hint e sp = None) ->
  should_ignore_file (e_word e) (e_comments e) (nspan t) = false ->
  instrument e n path ism t = instrument (mkEnv no_comments (e_word e) (e_lookup e) (e_report_logic e) (e_ignore_methods e)) n path ism t.
Proof.
  intros e n path ism t T Hh Hf. apply comments_only_hints; auto.
Qed.

(** Lines added in front of a program: every line number of the record grows by their number and nothing else changes. *)
Definition shift_span (d : N) (sp : span) : span := if (lo sp =? 0) || (hi sp =? 0) then sp else mkSpan (lo sp + d) (hi sp + d).
Definition shift_line (k l : N) : N := if l =? 0 then 0 else l + k.
Definition shift_range (k : N) (r : range) : range :=
  range_new (shift_line k (line (rstart r))) (column (rstart r)) (shift_line k (line (rend r))) (column (rend r)).
Theorem leading_lines : forall e1 e2 d k n path ism t, no_template t ->
  (* positions have a line, and the numbers fit into 32 bits *)
  (forall sp, In sp (all_spans t) -> sp = dummy_span \/ (lo sp <> 0 /\ hi sp <> 0)) ->
  (forall p, 0 < fst (e_lookup e1 p) /\ fst (e_lookup e1 p) + k < u32_mod) ->
  (* the second source is the first one with [d] bytes and [k] lines in front *)
  (forall p, e_lookup e2 (p + d) = (fst (e_lookup e1 p) + k, snd (e_lookup e1 p))) ->
  (forall p, p <> 0 -> leading (e_comments e2) (p + d) = leading (e_comments e1) p /\
    trailing (e_comments e2) (p + d) = trailing (e_comments e1) p) ->
  leading (e_comments e1) 0 = None -> leading (e_comments e2) 0 = None ->
  lo (nspan t) <> 0 -> hi (nspan t) <> 0 ->
  e_word e2 = e_word e1 -> e_report_logic e2 = e_report_logic e1 -> e_ignore_methods e2 = e_ignore_methods e1 ->
  instrument e2 n path ism (relayout (shift_span d) t) =
  move_out (shift_span d) (shift_range k) (shift_line k) path ism (instrument e1 n path ism t).
Proof.
  intros e1 e2 d k n path ism t T Hsp Hpos Hlk Hc H01 H02 Hl0 Hh0 Hw Hrl Him.
  assert (Hreal : forall sp, lo sp <> 0 -> hi sp <> 0 -> shift_span d sp = mkSpan (lo sp + d) (hi sp + d)).
  { intros sp A B. unfold shift_span. apply N.eqb_neq in A, B. now rewrite A, B. }
  apply layout_independent; auto.
  - intros sp [<-|I].
    + split.
      * unfold hint, should_ignore, lookup_hint_comments. cbn. now rewrite H01, H02.
      * reflexivity.
    + destruct (Hsp sp I) as [->|[A B]].
      { split; [|reflexivity]. unfold hint, should_ignore, lookup_hint_comments. cbn. now rewrite H01, H02. }
      rewrite (Hreal sp A B). split.
      * unfold hint, should_ignore, lookup_hint_comments. cbn [lo hi]. rewrite (proj1 (Hc _ A)), (proj1 (Hc _ B)), Hw. reflexivity.
      * unfold range_of, get_range_from_span. cbn [lo hi]. rewrite (proj2 (N.eqb_neq _ _) A), (proj2 (N.eqb_neq _ _) B).
        rewrite (proj2 (N.eqb_neq (hi sp + d) 0)), (proj2 (N.eqb_neq (lo sp + d) 0)) by lia. cbn [orb]. cbv zeta.
        rewrite !Hlk. unfold shift_range, shift_line, range_new. cbn [fst snd line column rstart rend].
        pose proof (Hpos (lo sp)) as [P1 P2]. pose proof (Hpos (hi sp)) as [P3 P4].
        unfold as_u32. rewrite !(N.mod_small (fst _)), !(N.mod_small (fst _ + k)) by lia.
        rewrite (proj2 (N.eqb_neq (fst (e_lookup e1 (lo sp))) 0)), (proj2 (N.eqb_neq (fst (e_lookup e1 (hi sp))) 0)) by lia. reflexivity.
  - rewrite (Hreal _ Hl0 Hh0). unfold should_ignore_file. cbn [lo hi]. destruct (Hc _ Hl0) as [-> ->]. destruct (Hc _ Hh0) as [-> ->]. now rewrite Hw.
Qed.

(** ** Examples *)
(** A comment that is a hint does matter, one that is none does not. *)
Example hint_comment_matters_ex :
  run_counters (comment_env 17 "istanbul ignore next") ex_function <> run_counters plain_env ex_function /\
  run_counters (comment_env 17 "ignore the next line") ex_function = run_counters plain_env ex_function.
Proof. vm_compute. split; [discriminate|reflexivity]. Qed.
Example no_hint_comment_ex : forall n path ism,
  instrument (comment_env 17 "ignore the next line") n path ism ex_function = instrument plain_env n path ism ex_function.
Proof.
  intros. apply (no_hints_no_comments (comment_env 17 "ignore the next line")).
  - reflexivity.
  - intros sp I. vm_compute in I. repeat (destruct I as [<-|I]; [vm_compute; reflexivity|]). destruct I.
  - reflexivity.
Qed.
(** Three lines of ten bytes in front of the function *)
Definition lines_env (p0 l0 : N) : env := mkEnv no_comments (fun _ => false) (fun p => (if p <? p0 then 1 else l0 + 1, p - p0)) false [].
Example leading_lines_ex : forall n path ism,
  instrument (lines_env 30 3) n path ism (relayout (shift_span 30) ex_function) =
  move_out (shift_span 30) (shift_range 3) (shift_line 3) path ism (instrument (lines_env 0 0) n path ism ex_function).
Proof.
  intros. apply leading_lines; try reflexivity; try discriminate.
  - intros sp I. vm_compute in I. repeat (destruct I as [<-|I]; [(left; reflexivity) || (right; split; discriminate)|]). destruct I.
  - intros p. unfold lines_env, u32_mod. cbn [e_lookup fst]. destruct (p <? 0); cbn [N.add]; split; reflexivity.
  - intros p. unfold lines_env. cbn [e_lookup fst snd].
    rewrite (proj2 (N.ltb_ge (p + 30) 30)), (proj2 (N.ltb_ge p 0)) by lia. f_equal; lia.
  - intros p _. split; reflexivity.
Qed.
Example leading_lines_record_ex :
  match instrument (lines_env 30 3) 40 "f.js" None (relayout (shift_span 30) ex_function) with
  | Ok (_, c) => (im_get 1 (fc_statement_map (sc_fc c)), option_map f_line (im_get 0 (fc_fn_map (sc_fc c))))
  | _ => (None, None)
  end = (Some (range_new 4 24 4 33), Some 4).
Proof. vm_compute. reflexivity. Qed.
(** The file name shows up in the record only. *)
Example other_name_ex : 
  match instrument plain_env 40 "f.js" None ex_function, instrument plain_env 40 "g.js" None ex_function with
  | Ok (a, c), Ok (b, d) => retitle_tree "g.js" None a = b /\ a <> b /\ fc_path (sc_fc c) = "f.js"%string /\ fc_path (sc_fc d) = "g.js"%string
  | _, _ => False
  end.
Proof. vm_compute. repeat split. discriminate. Qed.
