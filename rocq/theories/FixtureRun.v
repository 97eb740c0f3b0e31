(** Running a test fixture of the repository on the model, the way spec/util/verifier.ts does: instrument
    the source, run the result on the arguments of a test, compare output, line, statement, function,
    branch and truthiness counts with the expected ones. *)
From Coq Require Import NArith ZArith String List Bool PeanoNat.
Import ListNotations.
From Verif Require Import Base IndexMap Oxide SourceCov Hints Ast Visitor VisitorEx Sem JsHost.
Open Scope string_scope. Open Scope list_scope. Open Scope N_scope.

(** A source: its tree, the positions at which its lines start, the comments leading the token at a
    position, and the options [reportLogic] and [ignoreClassMethods] *)
Record fixture := mkFixture {
  fx_tree : node; fx_lines : list N; fx_comments : list (N * list string);
  fx_logic : bool; fx_methods : list string
}.
Record test := mkTest {
  tt_args : lit; tt_out : lit;
  tt_lines : list (N * N); tt_s : list (N * N); tt_f : list (N * N);
  tt_b : list (N * list N); tt_t : list (N * list N)
}.

(** Line (from 1) and column (from 0) of a position *)
Fixpoint find_line (starts : list N) (l s p : N) : N * N :=
  match starts with
  | [] => (l, p - s)
  | s' :: rest => if s' <=? p then find_line rest (l + 1) s' p else (l, p - s)
  end.
Definition lookup_in (starts : list N) (p : N) : N * N := find_line starts 0 0 p.
Definition comments_in (l : list (N * list string)) : comments :=
  mkComments (fun p => match filter (fun c => fst c =? p) l with
                       | [] => None
                       | c :: _ => Some (map chars (snd c))
                       end)
    (fun _ => None).
Definition env_of (x : fixture) : env :=
  mkEnv (comments_in (fx_comments x)) (fun _ => false) (lookup_in (fx_lines x)) (fx_logic x) (fx_methods x).

Definition same_counter (a b : counter) : bool :=
  match a, b with
  | CS i, CS j | CF i, CF j => i =? j
  | CB a i, CB b j | CT a i, CT b j => (a =? b) && (i =? j)
  | _, _ => false
  end.
Definition hits (l : list counter) (c : counter) : N := N.of_nat (length (filter (same_counter c) l)).
Fixpoint counted (c : N -> counter) (l : list counter) (i : N) (v : list N) : list N :=
  match v with [] => [] | h :: v' => (h + hits l (c i)) :: counted c l (i + 1) v' end.
(** The record after the run: every slot of the embedded record plus the increments *)
Definition after (l : list counter) (fc : file_coverage) : file_coverage :=
  mkFC (fc_all fc) (fc_path fc) (fc_statement_map fc) (fc_fn_map fc) (fc_branch_map fc)
    (map (fun kv => (fst kv, snd kv + hits l (CS (fst kv)))) (fc_s fc))
    (map (fun kv => (fst kv, snd kv + hits l (CF (fst kv)))) (fc_f fc))
    (map (fun kv => (fst kv, counted (CB (fst kv)) l 0 (snd kv))) (fc_b fc))
    (option_map (map (fun kv => (fst kv, counted (CT (fst kv)) l 0 (snd kv)))) (fc_b_t fc))
    (fc_input_source_map fc).
(** Is the slot there? (incrementing a missing one throws or makes a NaN) *)
Definition present (fc : file_coverage) (c : counter) : bool :=
  match c with
  | CS i => match im_get i (fc_s fc) with Some _ => true | None => false end
  | CF i => match im_get i (fc_f fc) with Some _ => true | None => false end
  | CB b i => match im_get b (fc_b fc) with Some v => i <? N.of_nat (length v) | None => false end
  | CT b i => match fc_b_t fc with
              | Some t => match im_get b t with Some v => i <? N.of_nat (length v) | None => false end
              | None => false
              end
  end.

Fixpoint all2 {A B} (f : A -> B -> bool) (a : list A) (b : list B) : bool :=
  match a, b with [], [] => true | x :: a', y :: b' => f x y && all2 f a' b' | _, _ => false end.
Definition same_hits (a b : list (N * N)) : bool :=
  all2 (fun x y => (fst x =? fst y) && (snd x =? snd y)) a b.
Definition same_paths (a b : list (N * list N)) : bool :=
  all2 (fun x y => (fst x =? fst y) && all2 N.eqb (snd x) (snd y)) a b.
(** Equal as maps: the lines come in the order of the statements *)
Definition same_lines (a b : list (N * N)) : bool :=
  Nat.eqb (length a) (length b) &&
  forallb (fun x => existsb (fun y => (fst x =? fst y) && (snd x =? snd y)) a) b.

Definition fuel : nat := 60.
(** The variable [output]: of the program if it declares one, else the surrounding one *)
Definition output (w : world) : val :=
  match resolve depth 1 "output" w with InScope _ v => v | _ => VUndef end.

Inductive outcome :=
| Passed
| Refused          (* the instrumenter does not finish *)
| Crashed          (* the program does not run to its end *)
| Differs (out lines s f b t slots : bool).

Definition compare (u : test) (out : bool) (fc fc' : file_coverage) (l : list counter) : outcome :=
  let lines := match get_line_coverage fc' with Ok lc => same_lines lc (tt_lines u) | _ => false end in
  let s := same_hits (fc_s fc') (tt_s u) in
  let f := same_hits (fc_f fc') (tt_f u) in
  let b := same_paths (fc_b fc') (tt_b u) in
  let t := same_paths (match fc_b_t fc' with Some t => t | None => [] end) (tt_t u) in
  let slots := forallb (present fc) l in
  if out && lines && s && f && b && t && slots then Passed else Differs out lines s f b t slots.

(** [check_out] is false where the expected output is the name of a function, which the interpreter
    does not know. *)
Definition run_test (x : fixture) (check_out : bool) (u : test) : outcome :=
  match instrument (env_of x) 200 "fixture.js" None (fx_tree x) with
  | Ok (t', sc) =>
      let (c, s) := run_program js fuel t' 0%nat (world0 (tt_args u)) in
      match c with
      | CNorm _ =>
          let l := cnt js s in
          compare u (negb check_out || looks (tt_out u) (output (hs js s)) (hs js s)) (sc_fc sc) (after l (sc_fc sc)) l
      | _ => Crashed
      end
  | _ => Refused
  end.
Definition run_tests (x : fixture) (check_out : bool) (l : list test) : list outcome := map (run_test x check_out) l.
Definition passes (x : fixture) (check_out : bool) (l : list test) : bool :=
  forallb (fun u => match run_test x check_out u with Passed => true | _ => false end) l.

(** Only the shape of the tables: the keys, the number of paths, and the lines *)
Definition tables (x : fixture) (u : test) : bool :=
  match instrument (env_of x) 200 "fixture.js" None (fx_tree x) with
  | Ok (_, sc) =>
      let fc := sc_fc sc in
      all2 N.eqb (im_keys (fc_s fc)) (map fst (tt_s u)) && all2 N.eqb (im_keys (fc_f fc)) (map fst (tt_f u)) &&
      all2 (fun a b => (fst a =? fst b) && Nat.eqb (length (snd a)) (length (snd b))) (fc_b fc) (tt_b u) &&
      match get_line_coverage fc with
      | Ok lc => Nat.eqb (length lc) (length (tt_lines u)) &&
                 forallb (fun y => existsb (N.eqb (fst y)) (im_keys lc)) (tt_lines u)
      | _ => false
      end
  | _ => false
  end.
