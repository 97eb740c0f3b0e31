(** C65: hints, ignored methods and reportLogic only take entries away. *)
From Coq Require Import NArith String List Bool Lia PeanoNat.
Import ListNotations.
From Verif Require Import Base IndexMap Decimal Oxide SourceCov Hints Ast Visitor VisitorEx Erase Influence Layout Registered Positions.
Open Scope N_scope.

(** ** Specification *)
(** The second hints ignore more: a hint is the same, or new, or ignores everything. *)
Definition more_hints (H1 H2 : span -> option ignore_scope) : Prop :=
  forall sp, H2 sp = H1 sp \/ H1 sp = None \/ H2 sp = Some INext.
(** Entries are left out; those that stay are the same, except that branches may lose paths. *)
Inductive fewer : list reg -> list reg -> Prop :=
| fw_nil : fewer [] []
| fw_keep : forall r a b, fewer a b -> fewer (r :: a) (r :: b)
| fw_paths : forall ty sp p q a b, thinned p q -> fewer a b -> fewer (RBranch ty sp p :: a) (RBranch ty sp q :: b)
| fw_drop : forall r a b, fewer a b -> fewer a (r :: b).

(** ** Lists *)
Lemma fewer_none : forall l, fewer [] l.
Proof. induction l; [apply fw_nil|now apply fw_drop]. Qed.
Lemma fewer_refl : forall l, fewer l l.
Proof. induction l; [apply fw_nil|now apply fw_keep]. Qed.
Lemma fewer_app : forall a b c d, fewer a b -> fewer c d -> fewer (a ++ c) (b ++ d).
Proof. intros a b c d F G. induction F; cbn [app]; [exact G|now apply fw_keep|now apply fw_paths|now apply fw_drop]. Qed.
Lemma fewer_left : forall a b c, fewer a c -> fewer a (b ++ c).
Proof. intros a b c F. induction b; [exact F|now apply fw_drop]. Qed.
Lemma thinned_filter : forall A (p q : A -> bool) l, (forall x, p x = true -> q x = true) -> thinned (filter p l) (filter q l).
Proof.
  intros A p q l Hpq. induction l as [|x l IH]; [constructor|]. cbn [filter]. destruct (p x) eqn:E.
  - rewrite (Hpq _ E). now apply th_keep.
  - destruct (q x); [now apply th_drop|exact IH].
Qed.
Lemma thinned_flat : forall A B (f g : A -> list B) l, Forall (fun x => thinned (f x) (g x)) l -> thinned (flat_map f l) (flat_map g l).
Proof. intros A B f g l F. induction F; cbn [flat_map]; [constructor|now apply thinned_app]. Qed.
Lemma fewer_flat : forall A (f g : A -> list reg) l, Forall (fun x => fewer (f x) (g x)) l -> fewer (flat_map f l) (flat_map g l).
Proof. intros A f g l F. induction F; cbn [flat_map]; [constructor|now apply fewer_app]. Qed.

Section Fewer.
Context (H1 H2 : span -> option ignore_scope) (rl1 rl2 : bool) (M1 M2 : list string).
Hypothesis HH : more_hints H1 H2.
Hypothesis HR : rl1 = true -> rl2 = true.
Hypothesis HM : incl M1 M2.
Notation regs1 := (regs H1 rl1 M1).
Notation regs2 := (regs H2 rl2 M2).

Lemma next_more : forall sp, next H1 sp = true -> next H2 sp = true.
Proof.
  intros sp K. unfold next in *. destruct (HH sp) as [->|[E| ->]]; [exact K| |reflexivity]. rewrite E in K. discriminate K.
Qed.
Lemma next_less : forall sp, next H2 sp = false -> next H1 sp = false.
Proof. intros sp K. destruct (next H1 sp) eqn:E; [|reflexivity]. now rewrite (next_more _ E) in K. Qed.
Lemma skipped_more : forall n, skipped_name M1 n = true -> skipped_name M2 n = true.
Proof.
  intros n K. unfold skipped_name in *. apply existsb_exists in K as (x & I & E). apply existsb_exists. exists x. split; [now apply HM|exact E].
Qed.
Lemma ignored_more : forall k sp cs, ignored H1 k sp cs = true -> ignored H2 k sp cs = true.
Proof. intros k sp cs. unfold ignored. destruct (hint_place k sp cs); [apply next_more|discriminate]. Qed.
Lemma closed_more : forall x, closed_operand H1 rl1 x = true -> closed_operand H2 rl2 x = true.
Proof.
  intros x K. unfold closed_operand in *. apply orb_true_iff in K as [K|K]; [apply orb_true_iff in K as [K|K]|].
  - now rewrite (next_more _ K).
  - rewrite K. now rewrite orb_true_r.
  - rewrite (HR K). now rewrite orb_true_r.
Qed.
Lemma cpath_more : forall t, thinned (cpath H2 t) (cpath H1 t).
Proof.
  intros t. unfold cpath. destruct (is_case t); [|constructor]. cbn [andb]. destruct (next H2 (nspan t)) eqn:E; [apply thinned_nil|].
  rewrite (next_less _ E). apply thinned_refl.
Qed.
Lemma cpaths_more : forall t, thinned (cpaths H2 t) (cpaths H1 t).
Proof.
  intros t. unfold cpaths. destruct (nkind t); try apply cpath_more. apply thinned_flat. apply Forall_forall. intros; apply cpath_more.
Qed.
(** Logical paths; a node together with everything below *)
Inductive deep (P : node -> Prop) : node -> Prop := deep_ : forall t, P t -> Forall (deep P) (nkids t) -> deep P t.
Lemma deep_here : forall P t, deep P t -> P t.
Proof. now intros P t []. Qed.
Lemma deep_kids : forall P t, deep P t -> Forall (deep P) (nkids t).
Proof. now intros P t []. Qed.
Lemma deep_list : forall P l, Forall (deep P) l -> Forall P l.
Proof. intros P l F. eapply Forall_impl; [|exact F]. apply deep_here. Qed.

Lemma lpaths_more : forall t, deep (fun x => thinned (lpaths H2 x) (lpaths H1 x)) t.
Proof.
  induction t as [k sp cs IH] using node_ind'. constructor; [|exact IH]. pose proof (thinned_flat _ _ _ _ _ (deep_list _ _ IH)) as F.
  destruct k; cbn [lpaths]; try exact F.
  - destruct (next H2 sp) eqn:E; [apply thinned_nil|]. now rewrite (next_less _ E).
  - destruct (next H2 sp) eqn:E; [apply thinned_nil|]. rewrite (next_less _ E). destruct (short_circuit op); [|exact F].
    apply thinned_flat. eapply Forall_impl; [|exact IH]. intros [xk xs xc] D. apply deep_kids in D. cbn [nkids] in D.
    destruct (next H2 xs) eqn:Ex; [apply thinned_nil|]. rewrite (next_less _ Ex). destruct (with_logical _); [|apply thinned_refl].
    apply thinned_flat, deep_list, D.
Qed.
Lemma operand_more : forall x, thinned (operand H2 x) (operand H1 x).
Proof.
  intros x. unfold operand. destruct (next H2 (nspan x)) eqn:E; [apply thinned_nil|]. rewrite (next_less _ E).
  destruct (with_logical x); [|apply thinned_refl]. apply thinned_flat, deep_list, deep_kids, lpaths_more.
Qed.

Notation D := (deep (fun x => fewer (regs2 x) (regs1 x))).
Lemma flat_more : forall cs, Forall D cs -> fewer (flat_map regs2 cs) (flat_map regs1 cs).
Proof. intros cs F. apply fewer_flat, deep_list, F. Qed.
Lemma kids_more : forall t, D t -> fewer (flat_map regs2 (nkids t)) (flat_map regs1 (nkids t)).
Proof. intros t F. apply flat_more, deep_kids, F. Qed.
Lemma loop_more : forall cs, Forall D cs -> fewer (loop_regs H2 regs2 cs) (loop_regs H1 regs1 cs).
Proof.
  intros cs F. induction F as [|c cs Dc F IH]; [constructor|]. destruct cs as [|c2 cs].
  - destruct c as [ck bs bc]. cbn [loop_regs]. apply kids_more in Dc. cbn [nkids] in Dc. destruct (existsb is_block bc); [exact Dc|].
    destruct (next H2 bs) eqn:E; [apply fewer_none|]. now rewrite (next_less _ E).
  - change (loop_regs H2 regs2 (c :: c2 :: cs)) with (regs2 c ++ loop_regs H2 regs2 (c2 :: cs)).
    change (loop_regs H1 regs1 (c :: c2 :: cs)) with (regs1 c ++ loop_regs H1 regs1 (c2 :: cs)).
    apply fewer_app; [now apply deep_here in Dc|exact IH].
Qed.
Lemma arm_more : forall x, D x -> fewer (arm_regs regs2 x) (arm_regs regs1 x).
Proof.
  intros [k sp cs] Dx. unfold arm_regs. apply fewer_flat. apply deep_kids in Dx. cbn [nkids] in Dx. eapply Forall_impl; [|exact Dx].
  intros [yk ys yc] Dy. destruct (is_block _); [now apply kids_more in Dy|now apply deep_here in Dy].
Qed.
Lemma named_more : forall nm a b c, fewer b c -> fewer (if skipped_name M2 nm then [] else a ++ b) (if skipped_name M1 nm then [] else a ++ c).
Proof.
  intros nm a b c F. destruct (skipped_name M2 nm) eqn:E2; [apply fewer_none|].
  destruct (skipped_name M1 nm) eqn:E1; [now rewrite (skipped_more _ E1) in E2|]. apply fewer_app; [apply fewer_refl|exact F].
Qed.
Lemma open_more : forall x, D x ->
  fewer (match x with Node _ _ xc => if closed_operand H2 rl2 x then [] else flat_map regs2 xc end)
    (match x with Node _ _ xc => if closed_operand H1 rl1 x then [] else flat_map regs1 xc end).
Proof.
  intros x Dx. apply kids_more in Dx. pose proof (closed_more x) as C. destruct x as [k sp cs]. cbn [nkids] in Dx.
  destruct (closed_operand H2 _ _); [apply fewer_none|]. destruct (closed_operand H1 _ _); [now discriminate C|exact Dx].
Qed.
Ltac none := apply fewer_none.
Theorem regs_more : forall t, D t.
Proof.
  induction t as [k sp cs IH] using node_ind'. constructor; [|exact IH]. pose proof (flat_more cs IH) as F.
  cbn [regs]. destruct (ignored H2 k sp cs) eqn:Ei; [none|].
  replace (ignored H1 k sp cs) with false by (symmetry; destruct (ignored H1 k sp cs) eqn:E1; [now rewrite (ignored_more _ _ _ E1) in Ei|reflexivity]).
  destruct k; try exact F; try none; try (apply fw_keep; exact F); try (apply fw_keep, loop_more; exact IH).
  - (* KStmts *) apply fewer_flat. eapply Forall_impl; [|exact IH]. intros [xk xs xc] Dx. destruct (next H2 xs) eqn:Ex; [none|].
    rewrite (next_less _ Ex). now apply kids_more in Dx.
  - (* KExprStmt *) destruct cs as [|x [|? ?]]; [none| |none]. destruct (directive x); [none|]. apply fewer_app; [apply fewer_refl|].
    inversion IH as [|? ? Dx _]. now apply deep_here in Dx.
  - (* KIf *) destruct cs as [|test [|con [|alt [|? ?]]]]; [none|none|none| |none]. inversion IH as [|? ? D1 IH']. inversion IH' as [|? ? D2 IH'']. inversion IH'' as [|? ? D3 _]. subst.
    assert (A1 := arm_more _ D2). assert (A2 := arm_more _ D3). assert (A3 := deep_here _ _ D1). cbv beta in A3.
    assert (Hs : H2 sp = H1 sp \/ H1 sp = None).
    { destruct (HH sp) as [E|[E|E]]; auto. unfold ignored in Ei. cbn [hint_place] in Ei. unfold next in Ei. rewrite E in Ei. discriminate Ei. }
    apply fw_keep. apply fw_paths.
    + destruct Hs as [-> | ->]; [apply thinned_refl|]. apply thinned_app; destruct (H2 sp) as [[]|]; auto using thinned_refl, thinned_nil.
    + apply fewer_app; [|apply fewer_app; [|exact A3]]; destruct Hs as [-> | ->]; try destruct (H1 sp) as [[]|]; try destruct (H2 sp) as [[]|]; auto using fewer_none.
  - (* KSwitch *) apply fw_keep, fw_paths; [|exact F]. apply thinned_flat, Forall_forall. intros; apply cpaths_more.
  - (* KWith *) destruct cs as [|o [|b [|? ?]]]; [none|none| |none]. inversion IH as [|? ? D1 IH']. inversion IH' as [|? ? D2 _]. subst.
    apply fw_keep. now apply arm_more.
  - (* KVarDeclarator *) destruct cs as [|a [|x cs]]; [none|none|]. apply fewer_app; [apply fewer_refl|exact F].
  - (* KFnDecl *) destruct cs as [|id [|fn [|? ?]]]; [none|none| |none]. destruct (ident_view id) as [[nm isp]|]; [|none]. apply fewer_app; [apply fewer_refl|exact F].
  - (* KFnExpr *) destruct cs as [|id [|fn [|? ?]]]; [none|none| |none]. destruct (ident_view id) as [[nm isp]|]; [|apply fewer_app; [apply fewer_refl|exact F]].
    now apply named_more.
  - (* KArrow *) destruct cs as [|p [|b [|ty [|? ?]]]]; [none|none|destruct b; none| |destruct b; none].
    inversion IH as [|? ? D1 IH']. inversion IH' as [|? ? D2 _]. subst. destruct b as [bk bs bc]. apply fw_keep. destruct (is_expr _).
    + destruct (next H2 bs) eqn:E; [none|]. rewrite (next_less _ E). apply fw_keep. now apply deep_here in D2.
    + now apply kids_more in D2.
  - (* KClassProp *) destruct cs as [|a [|x cs]]; [none|none|]. apply fewer_app; [apply fewer_refl|exact F].
  - (* KPrivateProp *) destruct cs as [|a [|x cs]]; [none|none|]. apply fewer_app; [apply fewer_refl|exact F].
  - (* KClassMethod *) destruct cs as [|id [|fn [|? ?]]]; [none|none| |none]. destruct (prop_ident_view id) as [[nm isp]|]; [|none]. now apply named_more.
  - (* KMethodProp *) destruct cs as [|id [|fn [|? ?]]]; [none|none| |none].
    destruct (prop_ident_view id) as [[nm isp]|]; [|apply fewer_app; [apply fewer_refl|exact F]]. now apply named_more.
  - (* KGetter *) destruct cs as [|key cs]; [none|]. destruct (prop_ident_view key) as [[nm isp]|]; [|apply fewer_app; [apply fewer_refl|exact F]]. now apply named_more.
  - (* KSetter *) destruct cs as [|key cs]; [none|]. destruct (prop_ident_view key) as [[nm isp]|]; [|apply fewer_app; [apply fewer_refl|exact F]]. now apply named_more.
  - (* KCond *) destruct cs as [|t [|con [|alt [|? ?]]]]; [none|none|none| |none]. apply fw_paths; [|exact F].
    apply thinned_filter. intros p Hp. rewrite negb_true_iff in *. now apply next_less.
  - (* KBin *) destruct (short_circuit op); [|exact F]. apply fw_paths; [apply thinned_flat, Forall_forall; intros; apply operand_more|].
    apply fewer_flat. eapply Forall_impl; [|exact IH]. intros x Dx. now apply open_more.
  - (* KAssignPat *) destruct cs as [|l [|r [|? ?]]]; [none|none| |destruct r; none]. inversion IH as [|? ? D1 IH']. inversion IH' as [|? ? D2 _]. subst.
    apply open_more in D2. pose proof (operand_more r) as O. destruct r as [rk rs rc]. apply fw_paths; [exact O|exact D2].
Qed.
End Fewer.

(** ** Programs and records *)
Section Programs.
Context (H1 H2 : span -> option ignore_scope) (rl1 rl2 : bool) (M1 M2 : list string).
Hypothesis HH : more_hints H1 H2.
Hypothesis HR : rl1 = true -> rl2 = true.
Hypothesis HM : incl M1 M2.
Lemma regs_fewer : forall t, fewer (regs H2 rl2 M2 t) (regs H1 rl1 M1 t).
Proof. intros t. apply (deep_here _ _ (regs_more H1 H2 rl1 rl2 M1 M2 HH HR HM t)). Qed.
Lemma regs_flat : forall cs, fewer (flat_map (regs H2 rl2 M2) cs) (flat_map (regs H1 rl1 M1) cs).
Proof. intros cs. apply fewer_flat, Forall_forall. intros; apply regs_fewer. Qed.
Lemma unless_next : forall sp a b, fewer a b -> fewer (if next H2 sp then [] else a) (if next H1 sp then [] else b).
Proof. intros sp a b F. destruct (next H2 sp) eqn:E; [apply fewer_none|]. now rewrite (next_less H1 H2 HH _ E). Qed.
Lemma top_fewer : forall y, fewer (top_regs H2 rl2 M2 y) (top_regs H1 rl1 M1 y).
Proof.
  intros y. unfold top_regs. destruct (nkind y); try apply regs_fewer. unfold top_declaration. apply unless_next.
  apply fewer_flat, Forall_forall. intros l _. apply fewer_flat, Forall_forall. intros [k sp cs] _. unfold top_declarator.
  destruct k; try apply regs_fewer. apply unless_next. destruct cs as [|a [|x cs]]; [apply fewer_none|apply fewer_none|].
  apply fewer_app; [apply fewer_refl|apply regs_flat].
Qed.
Lemma item_fewer : forall x, fewer (item_regs H2 rl2 M2 x) (item_regs H1 rl1 M1 x).
Proof.
  intros x. unfold item_regs. destruct (string_item x); [apply fewer_none|]. apply fewer_app; [apply fewer_refl|]. apply unless_next.
  apply fewer_flat, Forall_forall. intros y _. unfold export_regs. destruct (nkind y); try apply top_fewer; apply unless_next, regs_flat.
Qed.
Theorem program_fewer_here : forall t, fewer (program_regs H2 rl2 M2 t) (program_regs H1 rl1 M1 t).
Proof.
  intros [k sp cs]. unfold program_regs. destruct cs as [|[k' sp' items] [|? ?]]; try apply fewer_none.
  destruct k; try apply fewer_none; destruct k'; try apply fewer_none; apply fewer_flat, Forall_forall; intros x _.
  - apply item_fewer.
  - apply fewer_flat, Forall_forall. intros; apply top_fewer.
Qed.
End Programs.
(** The specified entries of a program *)
Theorem program_fewer : forall H1 H2 rl1 rl2 M1 M2 t,
  more_hints H1 H2 -> (rl1 = true -> rl2 = true) -> incl M1 M2 -> fewer (program_regs H2 rl2 M2 t) (program_regs H1 rl1 M1 t).
Proof. intros H1 H2 rl1 rl2 M1 M2 t HH HR HM. now apply program_fewer_here. Qed.

(** What stays of a table *)
Inductive thin_by {A} (R : A -> A -> Prop) : list A -> list A -> Prop :=
| tb_nil : thin_by R [] []
| tb_keep : forall x y a b, R x y -> thin_by R a b -> thin_by R (x :: a) (y :: b)
| tb_drop : forall y a b, thin_by R a b -> thin_by R a (y :: b).
Definition anonymous (i : N) : string := ("(anonymous_" ++ dec i ++ ")")%string.
Definition same_function (f g : func) : Prop :=
  f_decl f = f_decl g /\ f_loc f = f_loc g /\ f_line f = f_line g /\
  (f_name f = f_name g \/ exists i j, f_name f = anonymous i /\ f_name g = anonymous j).
Definition part_of_branch (b d : branch) : Prop :=
  b_type b = b_type d /\ b_loc b = b_loc d /\ b_line b = b_line d /\ thinned (b_locations b) (b_locations d).
(** The tables of the first record are those of the second with entries and paths left out. *)
Definition part_of_record (a b : file_coverage) : Prop :=
  thinned (map snd (fc_statement_map a)) (map snd (fc_statement_map b)) /\
  thin_by same_function (map snd (fc_fn_map a)) (map snd (fc_fn_map b)) /\
  thin_by part_of_branch (map snd (fc_branch_map a)) (map snd (fc_branch_map b)).

Lemma thin_none : forall A (R : A -> A -> Prop) l, thin_by R [] l.
Proof. induction l; [apply tb_nil|now apply tb_drop]. Qed.
Lemma thinned_map : forall A B (f : A -> B) a b, thinned a b -> thinned (map f a) (map f b).
Proof. intros A B f a b F. induction F; cbn [map]; [constructor|now apply th_keep|now apply th_drop]. Qed.
Lemma numbered : forall A (l : list A) i, map snd (number_from i l) = l.
Proof. intros A l. induction l as [|x l IH]; intros i; [reflexivity|]. cbn [number_from map snd]. now rewrite IH. Qed.

Section Tables.
Context (e : env).
Lemma stmts_fewer : forall R2 R1, fewer R2 R1 -> thinned (reg_stmts e R2) (reg_stmts e R1).
Proof.
  intros R2 R1 F. unfold reg_stmts. induction F as [|r a b F IH|ty sp p q a b T F IH|r a b F IH]; cbn [flat_map app]; [constructor| |exact IH|].
  - apply thinned_app; [apply thinned_refl|exact IH].
  - now apply thinned_left.
Qed.
Lemma fns_fewer : forall R2 R1, fewer R2 R1 -> thinned (reg_fns e R2) (reg_fns e R1).
Proof.
  intros R2 R1 F. unfold reg_fns. induction F as [|r a b F IH|ty sp p q a b T F IH|r a b F IH]; cbn [flat_map app]; [constructor| |exact IH|].
  - apply thinned_app; [apply thinned_refl|exact IH].
  - now apply thinned_left.
Qed.
Lemma fn_rows : forall F2 F1, thinned F2 F1 -> forall i j,
  thin_by same_function (map snd (map (fun x => (fst x, fn_row (fst x) (snd x))) (number_from i F2)))
    (map snd (map (fun x => (fst x, fn_row (fst x) (snd x))) (number_from j F1))).
Proof.
  intros F2 F1 T. induction T as [|x a b T IH|x a b T IH]; intros i j; cbn [number_from map snd]; [constructor| |].
  - apply tb_keep; [|apply IH]. cbn [fst snd]. destruct x as [[n d] l]. unfold fn_row, same_function. cbn. repeat (split; [reflexivity|]).
    destruct n; [now left|right]. now exists i, j.
  - apply tb_drop. apply IH.
Qed.
Definition row_of (x : branch_type * range * list range) (y : branch_type * range * list range) : Prop :=
  fst x = fst y /\ thinned (snd x) (snd y).
Lemma branches_fewer : forall R2 R1, fewer R2 R1 -> thin_by row_of (reg_branches e R2) (reg_branches e R1).
Proof.
  intros R2 R1 F. unfold reg_branches. induction F as [|r a b F IH|ty sp p q a b T F IH|r a b F IH]; cbn [flat_map app]; [constructor| | |].
  - destruct r; cbn [app]; try exact IH. apply tb_keep; [|exact IH]. split; [reflexivity|apply thinned_refl].
  - apply tb_keep; [|exact IH]. split; [reflexivity|]. now apply thinned_map.
  - destruct r; cbn [app]; try exact IH. now apply tb_drop.
Qed.
Lemma branch_rows : forall B2 B1, thin_by row_of B2 B1 -> forall i j,
  let keep := fun x : N * (branch_type * range * list range) => match snd (snd x) with [] => false | _ => true end in
  thin_by part_of_branch (map snd (map (fun x => (fst x, branch_row (snd x))) (filter keep (number_from i B2))))
    (map snd (map (fun x => (fst x, branch_row (snd x))) (filter keep (number_from j B1)))).
Proof.
  intros B2 B1 T i j keep. revert i j. induction T as [|x y a b [E P] T IH|y a b T IH]; intros i j; cbn [number_from filter]; [constructor| |].
  - unfold keep at 1 3. cbn [snd fst]. destruct x as [[ty l] p], y as [[ty' l'] q]. cbn [fst snd] in *. injection E as <- <-.
    destruct p as [|p0 p].
    + destruct q; [apply IH|]. cbn [map]. apply tb_drop, IH.
    + destruct q as [|q0 q]; [inversion P|]. cbn [map snd fst]. apply tb_keep; [|apply IH]. unfold part_of_branch, branch_row. cbn. auto.
  - unfold keep at 2. cbn [snd fst]. destruct (snd y); [apply IH|]. cbn [map]. apply tb_drop, IH.
Qed.
End Tables.

(** ** Ignoring only removes *)
Theorem ignoring_only_removes_partial : forall e1 e2 n1 n2 path ism t t1 t2 c1 c2,
  e_lookup e2 = e_lookup e1 -> more_hints (hint e1) (hint e2) -> (e_report_logic e1 = true -> e_report_logic e2 = true) ->
  incl (e_ignore_methods e1) (e_ignore_methods e2) ->
  next (hint e2) dummy_span = false -> should_ignore_file (e_word e1) (e_comments e1) (nspan t) = false -> proper_program t = true ->
  instrument e1 n1 path ism t = Ok (t1, c1) -> instrument e2 n2 path ism t = Ok (t2, c2) ->
  part_of_record (sc_fc c2) (sc_fc c1).
Proof.
  intros e1 e2 n1 n2 path ism t t1 t2 c1 c2 L HH HR HM Hd Hf Hp I1 I2.
  pose proof (record_is_exact e1 n1 path ism t t1 c1 (next_less _ _ HH _ Hd) Hf Hp I1) as (S1 & F1 & B1).
  destruct (should_ignore_file (e_word e2) (e_comments e2) (nspan t)) eqn:Hf2.
  - unfold instrument, visit_program in I2. rewrite Hf2 in I2. cbn in I2. injection I2 as _ <-. cbn.
    split; [apply thinned_nil|]. split; apply thin_none.
  - pose proof (record_is_exact e2 n2 path ism t t2 c2 Hd Hf2 Hp I2) as (S2 & F2 & B2).
    pose proof (program_fewer _ _ _ _ _ _ t HH HR HM) as F.
    assert (RE : range_of e2 = range_of e1) by (unfold range_of; now rewrite L).
    unfold part_of_record. rewrite S1, F1, B1, S2, F2, B2. unfold reg_stmts at 1, reg_fns at 1, reg_branches at 1. rewrite RE. split; [|split].
    + rewrite !numbered. apply (stmts_fewer e1 _ _ F).
    + apply fn_rows. apply (fns_fewer e1 _ _ F).
    + apply branch_rows. apply (branches_fewer e1 _ _ F).
Qed.
(** A program without comments and options has the most entries. *)
Definition bare (e : env) : env := mkEnv no_comments (e_word e) (e_lookup e) false [].
Theorem hints_only_remove_partial : forall e n1 n2 path ism t t1 t2 c1 c2,
  next (hint e) dummy_span = false -> proper_program t = true ->
  instrument (bare e) n1 path ism t = Ok (t1, c1) -> instrument e n2 path ism t = Ok (t2, c2) -> part_of_record (sc_fc c2) (sc_fc c1).
Proof.
  intros e n1 n2 path ism t t1 t2 c1 c2 Hd Hp I1 I2.
  refine (ignoring_only_removes_partial (bare e) e n1 n2 path ism t t1 t2 c1 c2 eq_refl _ _ _ Hd _ Hp I1 I2); try discriminate.
  - intros sp. right. left. reflexivity.
  - intros x [].
  - reflexivity.
Qed.

(** ** Where it is not so *)
(** [a || b; const f = () => 1;]: ignoring the first statement adds the variable to the table, since a logical expression takes the
    counter of such variables away. *)
Definition ex_pair : node := module_ 1 90 [ex_logical_stmt; ex_arrow_const].
Definition ranges_of (r : res (node * source_cov)) : list (N * N) :=
  match r with Ok (_, c) => map (fun p => (column (rstart (snd p)), column (rend (snd p)))) (fc_statement_map (sc_fc c)) | _ => [] end.
Theorem ignoring_adds_refuted : exists t e, e_lookup e = e_lookup plain_env /\ e_report_logic e = false /\ e_ignore_methods e = [] /\
  next (hint e) dummy_span = false /\
  ranges_of (instrument plain_env 40 "f.js" None t) = [(30, 37); (57, 58)] /\
  ranges_of (instrument e 40 "f.js" None t) = [(50, 58); (57, 58)].
Proof. exists ex_pair, (comment_env 30 " istanbul ignore next "). vm_compute. repeat split. Qed.
(** The program of C45 with and without its hint: the loop and its body are left out. *)
Example fewer_ex :
  let e := comment_env 90 "istanbul ignore next" in
  bare e = plain_env /\ proper_program ex_registered = true /\ next (hint e) dummy_span = false /\
  ranges_of (instrument plain_env 40 "f.js" None ex_registered) =
    [(1, 30); (18, 29); (51, 67); (58, 67); (90, 104); (100, 104); (105, 128); (131, 160); (153, 155); (171, 189); (179, 186)] /\
  ranges_of (instrument e 40 "f.js" None ex_registered) =
    [(1, 30); (18, 29); (51, 67); (58, 67); (105, 128); (131, 160); (153, 155); (171, 189); (179, 186)].
Proof. intros e. split; [reflexivity|]. vm_compute. repeat split. Qed.
