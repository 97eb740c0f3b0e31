(** Instrumented programs do what the original does (C34). *)
From Coq Require Import NArith String List Bool Lia PeanoNat.
Import ListNotations.
From Verif Require Import Base IndexMap Oxide SourceCov Hints Ast Visitor VisitorRel VisitorEx Erase Sem SemShape SemErase SemVisit.
Open Scope N_scope.

(** ** The programs covered

    [fits] (SemShape.v), at every child: no directive prologue in functions and scripts (the
    instrumenter displaces it: see the refutation below), no declaration directly as the body
    of an [if], a loop or [with], and, with [reportLogic], no tagged template as the
    initialiser of a variable or field (the instrumenter visits those twice).  Loops have as
    many children as the grammar says. *)
Definition arity_ok (k : kind) (n : nat) : bool :=
  match k with
  | KFor => Nat.eqb n 4
  | KForIn | KForOf => Nat.eqb n 3
  | KWhile | KDoWhile => Nat.eqb n 2
  | _ => true
  end.
Fixpoint all_fit (rl : bool) (k : kind) (i : nat) (cs : list node) : bool :=
  match cs with [] => true | c :: cs' => fits rl k i c && all_fit rl k (S i) cs' end.
Fixpoint covered_program (rl : bool) (t : node) : bool :=
  match t with
  | Node k sp cs => arity_ok k (length cs) && all_fit rl k 0 cs && forallb (covered_program rl) cs
  end.

Lemma clean_Sh : forall rl t, clean t = true -> covered_program rl t = true -> Sh false rl PO t.
Proof.
  intros rl t. induction t as [k sp cs IH] using node_ind'. intros Hc Hp.
  cbn [clean] in Hc. apply andb_true_iff in Hc as [Hn Hcs].
  cbn [covered_program] in Hp. apply andb_true_iff in Hp as [Hp Hps]. apply andb_true_iff in Hp as [Ha Hf].
  assert (Hmap : map erase cs = cs).
  { clear - Hcs. induction cs as [|c cs IHcs]; [reflexivity|]. cbn [forallb] in Hcs.
    apply andb_true_iff in Hcs as [Hc Hcs]. cbn [map]. rewrite (erase_clean c Hc), IHcs; auto. }
  apply Sh_node.
  - unfold clean_node in Hn. apply andb_true_iff in Hn as [Hn _]. exact Hn.
  - rewrite Hmap. unfold clean_node in Hn. apply andb_true_iff in Hn as [_ Hn].
    destruct k; cbn [side]; try exact I; try (now apply Nat.eqb_eq in Ha).
    apply andb_true_iff in Hn as [Hs Hcc]. apply andb_true_iff in Hs as [Hlo Hhi].
    destruct cs; [|discriminate]. apply N.eqb_eq in Hlo, Hhi. destruct sp. simpl in *. now subst.
  - clear Hmap Ha Hn. revert Hf. generalize 0%nat. induction cs as [|c cs IHcs]; intros i Hf; [constructor|].
    cbn [forallb all_fit] in *. apply andb_true_iff in Hcs as [Hc Hcs]. apply andb_true_iff in Hps as [Hp Hps].
    apply andb_true_iff in Hf as [Hf1 Hf]. inversion IH; subst.
    apply Shs_cons with (q := PO); [|auto|auto]. rewrite (erase_clean c Hc). exact Hf1.
Qed.

Theorem instrument_Sh : forall e n path ism t t' c,
  clean t = true -> covered_program (e_report_logic e) t = true -> instrument e n path ism t = Ok (t', c) ->
  Sh (e_report_logic e) (e_report_logic e) PO t'.
Proof.
  intros e n path ism t t' c Hc Hp H. pose proof (clean_Sh _ _ Hc Hp) as Hsh. unfold instrument in H.
  apply bind_ok in H as [[t1 s1] [Hv H]]. inversion H; subst. clear H.
  unfold visit_program in Hv. destruct (should_ignore_file _ _ _).
  - inversion Hv; subst. now apply Sh_mono.
  - apply bind_ok in Hv as [[t1 s2] [Hv H]]. inversion H; subst.
    apply visit_sound in Hv. apply (proj1 (shapes_all e)) in Hv. apply Hv; [constructor|assumption].
Qed.

(** For every environment, every bound on calls and iterations, and every initial scope and
    world, the two programs complete in the same way (result or exception), leave the world
    in the same state (it may record every interaction in order) and pass the same places.
    With [reportLogic] the environment must evaluate the injected truthiness tests without
    side effects. *)
Theorem same_behaviour : forall e n path ism t t' c,
  clean t = true -> covered_program (e_report_logic e) t = true -> instrument e n path ism t = Ok (t', c) ->
  forall h, (e_report_logic e = true -> pure_tests h) ->
  forall fuel x w,
  fst (run_program h fuel t' x w) = fst (run_program h fuel t x w) /\
  hs h (snd (run_program h fuel t' x w)) = hs h (snd (run_program h fuel t x w)) /\
  evs h (snd (run_program h fuel t' x w)) = evs h (snd (run_program h fuel t x w)).
Proof.
  intros e n path ism t t' c Hc Hp Hi h Hpure fuel x w.
  pose proof (instrument_Sh _ _ _ _ _ _ _ Hc Hp Hi) as Hsh.
  pose proof (run_program_rel _ _ h Hpure fuel t' x w Hsh) as H.
  rewrite (erase_instrument _ _ _ _ _ _ _ Hc Hi) in H.
  destruct (run_program h fuel t' x w) as [c' s'], (run_program h fuel t x w) as [c0 s]. exact H.
Qed.

(** ** A small environment

    Values are numbers (0 is [undefined] and falsy); variables are global; [KOther 0] is the
    literal 7, [KOther 1] prints its operand, [KOther 2] calls the first function made. *)
Record world := mkWorld { vars : list (string * N); out : list N; dirs : list (list string) }.
Definition lookup (x : string) (w : world) : N :=
  match find (fun p => String.eqb (fst p) x) (vars w) with Some (_, v) => v | None => 0 end.
Definition bindx (x : string) (v : N) (w : world) : world := mkWorld ((x, v) :: vars w) (out w) (dirs w).
Definition toy_start (k : kind) (ns : list bool) (m : mode) (ls : list string) (x : unit) (v : N) (w : world)
  : action N string unit N * world :=
  match k with
  | KIdent y => match m with MBind _ => (ADone (CNorm (RVal 0)), bindx y v w) | _ => (ADone (CNorm (RRef y)), w) end
  | KOther i =>
      if i =? 1 then (AEval 0 MRead tt 0 1, w) else if i =? 2 then (AEval 0 MRead tt 0 2, w)
      else (ADone (CNorm (RVal 7)), w)
  | KList => match m with MBind _ => (AEval 0 m tt v 3, w) | _ => (ADone (CNorm (RVal 0)), w) end
  | _ => (ADone (CNorm (RVal 0)), w)
  end.
Definition toy_val (r : rv N string) (w : world) : N := match r with RVal v => v | RRef y => lookup y w end.
Definition toy_resume (k : N) (a : answer N string) (w : world) : action N string unit N * world :=
  match a with
  | AnsC (CNorm r) =>
      match k with
      | 1 => (ADone (CNorm (RVal 0)), mkWorld (vars w) (out w ++ [toy_val r w]) (dirs w))
      | 2 => (ACall 0 tt (toy_val r w) 3, w)
      | _ => (ADone (CNorm (RVal (toy_val r w))), w)
      end
  | AnsC c => (ADone c, w)
  | AnsF _ => (ADone (CNorm (RVal 0)), w)
  end.
(** [tests] plays the injected truthiness tests. *)
Definition toy (tests : N -> world -> action N string unit N * world) : host :=
  mkHost N string unit world N 0 (N.eqb 0) (fun v => negb (v =? 0)) (N.eqb 0) N.eqb
    toy_start toy_resume
    (fun r w => (ADone (CNorm (RVal (lookup r w))), w))
    (fun ds _ x w => (x, match ds with [] => w | _ => mkWorld (vars w) (out w) (ds :: dirs w) end))
    (fun x w => (x, w))
    (fun _ _ _ w => w)
    (fun _ x w => (inr x, w))
    (fun _ v _ w => tests v w).
Definition pure_toy : host := toy (fun v w => (ADone (CNorm (RVal v)), w)).
(** A test that runs user code (for instance a getter), which prints *)
Definition getter_toy : host := toy (fun v w => (ADone (CNorm (RVal v)), mkWorld (vars w) (out w ++ [99]) (dirs w))).

Definition show {h : host} (r : completion (hV h) (hR h) * state h) := (fst r, hs h (snd r)).
Definition print (a b : N) (x : node) : node := T a b KExprStmt [X a b (KOther 1) [x]].
Definition call_ (a b : N) (x : node) : node := X a b (KOther 2) [x].

(** [function f(a) { if (a) return 7; return a || 7; }  print(f(7)); print(f(x))] *)
Definition ex_calls : node :=
  module_ 1 90
    [T 1 50 KFnDecl [at_ 10 11 (KIdent "f") []; fn_ 1 50 [at_ 12 13 (KIdent "a") []]
      (block 15 50
        [T 17 33 KIf [var 21 22 "a"; T 24 33 KReturn [var 31 32 "a"]; none];
         T 34 48 KReturn [X 41 47 (KBin OpOr) [var 41 42 "a"; num 46 47]]])];
     print 51 60 (call_ 53 59 (num 57 58));
     print 61 70 (call_ 63 69 (var 67 68 "x"))].

Definition w0 : world := mkWorld [] [] [].
Example same_behaviour_ex :
  covered_program false ex_calls = true /\ clean ex_calls = true /\
  match instrument plain_env 40 "f.js" None ex_calls with
  | Ok (t', _) =>
      show (run_program pure_toy 9 ex_calls tt w0) = (CNorm (RVal 0), mkWorld [("a"%string, 0); ("a"%string, 7)] [7; 7] []) /\
      show (run_program pure_toy 9 t' tt w0) = show (run_program pure_toy 9 ex_calls tt w0) /\
      rev (cnt _ (snd (run_program pure_toy 9 t' tt w0))) =
        [CS 3; CF 0; CS 0; CB 0 0; CS 1; CS 4; CF 0; CS 0; CB 0 1; CS 2; CB 1 0; CB 1 1] /\
      cnt _ (snd (run_program pure_toy 9 ex_calls tt w0)) = []
  | _ => False
  end.
Proof. vm_compute. repeat split; reflexivity. Qed.

(** With [reportLogic] and pure tests *)
Example same_behaviour_logic_ex :
  covered_program true ex_calls = true /\
  match instrument logic_env 40 "f.js" None ex_calls with
  | Ok (t', _) =>
      show (run_program pure_toy 9 t' tt w0) = show (run_program pure_toy 9 ex_calls tt w0) /\
      In (CT 1 1) (cnt _ (snd (run_program pure_toy 9 t' tt w0)))
  | _ => False
  end.
Proof. vm_compute. repeat split; auto 20. Qed.

(** ** Where the behaviour changes *)

(** [function f(a) { "use strict"; return a }  print(f(7))]: the counter of [f] is put before
    the directive, so the body is no longer strict (F10). *)
Definition ex_strict : node :=
  module_ 1 90
    [T 1 50 KFnDecl [at_ 10 11 (KIdent "f") []; fn_ 1 50 [at_ 12 13 (KIdent "a") []]
      (block 15 50 [T 17 30 KExprStmt [X 17 29 (KStr "use strict") []]; T 34 48 KReturn [var 41 42 "a"]])];
     print 51 60 (call_ 53 59 (num 57 58))].
Theorem same_behaviour_directives_refuted :
  exists e t t' c h fuel x w,
    clean t = true /\ e_report_logic e = false /\ instrument e 40 "f.js" None t = Ok (t', c) /\
    hs h (snd (run_program h fuel t' x w)) <> hs h (snd (run_program h fuel t x w)).
Proof.
  exists plain_env, ex_strict.
  destruct (instrument plain_env 40 "f.js" None ex_strict) as [[t' c]| |] eqn:H; [|vm_compute in H; discriminate..].
  exists t', c, pure_toy, 9%nat, tt, w0. vm_compute in H. inversion H; subst. clear H.
  do 3 (split; [vm_compute; reflexivity|]). vm_compute. discriminate.
Qed.
(** The same for a script: the preamble is put before its directives. *)
Definition ex_strict_script : node := script_ 1 40 [T 1 14 KExprStmt [X 1 13 (KStr "use strict") []]; print 15 20 (num 17 18)].
Theorem same_behaviour_script_refuted :
  exists e t t' c h fuel x w,
    clean t = true /\ e_report_logic e = false /\ instrument e 40 "f.js" None t = Ok (t', c) /\
    hs h (snd (run_program h fuel t' x w)) <> hs h (snd (run_program h fuel t x w)).
Proof.
  exists plain_env, ex_strict_script.
  destruct (instrument plain_env 40 "f.js" None ex_strict_script) as [[t' c]| |] eqn:H; [|vm_compute in H; discriminate..].
  exists t', c, pure_toy, 9%nat, tt, w0. vm_compute in H. inversion H; subst. clear H.
  do 3 (split; [vm_compute; reflexivity|]). vm_compute. discriminate.
Qed.
(** With [reportLogic] the injected tests read properties of the value, which can run code. *)
Theorem same_behaviour_tests_refuted :
  exists e t t' c h fuel x w,
    clean t = true /\ covered_program true t = true /\ e_report_logic e = true /\
    instrument e 40 "f.js" None t = Ok (t', c) /\
    hs h (snd (run_program h fuel t' x w)) <> hs h (snd (run_program h fuel t x w)).
Proof.
  exists logic_env, ex_calls.
  destruct (instrument logic_env 40 "f.js" None ex_calls) as [[t' c]| |] eqn:H; [|vm_compute in H; discriminate..].
  exists t', c, getter_toy, 9%nat, tt, w0. vm_compute in H. inversion H; subst. clear H.
  do 4 (split; [vm_compute; reflexivity|]). vm_compute. discriminate.
Qed.
