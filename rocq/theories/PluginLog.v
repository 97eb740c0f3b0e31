(** C44: the option [instrumentLog.level] (swc-plugin-coverage/src/lib.rs:30-54).

    Five words switch logging on, all others are ignored.  Logging is switched on by setting the global subscriber of the process,
    which can be done once. *)
From Coq Require Import NArith String List Bool.
Import ListNotations.
From Verif Require Import Base Options Ast Visitor Plugin.
Open Scope string_scope. Open Scope list_scope.

Definition levels : list string := ["error"; "debug"; "info"; "warn"; "trace"].
Definition wants_log (m : meta) : Prop := exists s, lo_level (o_log (options_of m)) = Some s /\ In s levels.

Lemma wants_iff : forall m, match lo_level (o_log (options_of m)) with Some s => log_level s | None => false end = true <-> wants_log m.
Proof.
  intros m. unfold wants_log. destruct (lo_level (o_log (options_of m))) as [s|].
  - unfold log_level. rewrite existsb_exists. split.
    + intros (y & I & E). apply String.eqb_eq in E as ->. now exists y.
    + intros (y & E & I). injection E as ->. exists y. split; [exact I|]. apply String.eqb_refl.
  - split; [discriminate|]. intros (s & E & _). discriminate.
Qed.

(** The second file of a process that asks for logging crashes.  In all other cases logging is on afterwards if it was on before
    or if the file asked for it and is not excluded; and whether it is on does not change the output. *)
Theorem log_once : forall x m n t p,
  (excluded x (options_of m) (file_name m) = false -> wants_log m -> p_log p = true -> process x m n t p = Panic RLogInit) /\
  (forall out p', process x m n t p = Ok (out, p') ->
     (p_log p' = true <-> p_log p = true \/ (excluded x (options_of m) (file_name m) = false /\ wants_log m))) /\
  (~ wants_log m -> forall q, p_fn q = p_fn p -> p_temp q = p_temp p ->
     match process x m n t p, process x m n t q with
     | Ok (a, p1), Ok (b, q1) => a = b /\ p_fn p1 = p_fn q1 /\ p_temp p1 = p_temp q1
     | Panic r, Panic s => r = s
     | OutOfFuel, OutOfFuel => True
     | _, _ => False
     end).
Proof.
  intros x m n t p. pose proof (wants_iff m) as W. split; [|split].
  - intros Hx Hw Hp. apply W in Hw. rewrite process_cases, Hx, Hw, Hp. reflexivity.
  - intros out p' H. rewrite process_cases in H. destruct (excluded _ _ _).
    + injection H as _ <-. split; [now left|]. intros [A|(A & _)]; [exact A|discriminate].
    + destruct (match lo_level (o_log (options_of m)) with Some s => log_level s | None => false end); cbn [andb orb] in H.
      * destruct (p_log p); [discriminate|]. destruct (instrument _ _ _ _ _) as [[t' c]| |]; try discriminate.
        injection H as _ <-. cbn [p_log]. split; [|reflexivity]. intros _. right. split; [reflexivity|now apply W].
      * destruct (instrument _ _ _ _ _) as [[t' c]| |]; try discriminate. injection H as _ <-. cbn [p_log].
        split; [now left|]. intros [A|(_ & A)]; [exact A|]. apply W in A. discriminate.
  - intros Nw q Ef Et. rewrite !process_cases, Ef, Et. destruct (excluded _ _ _); [now rewrite Ef, Et|].
    destruct (match lo_level (o_log (options_of m)) with Some s => log_level s | None => false end); [exfalso; now apply Nw, W|].
    cbn [andb orb]. destruct (instrument _ _ _ _ _) as [[t' c]| |]; [|reflexivity|exact I]. now repeat split.
Qed.

Definition log_meta (level : string) : meta :=
  mkMeta (Some "a.js") (Some ("{""instrumentLog"": {""level"": """ ++ level ++ """}}")%string) no_comments (fun n => (n, 0%N)) (fun _ => false).
Lemma level_of : forall s, In s ("loud" :: levels) -> lo_level (o_log (options_of (log_meta s))) = Some s.
Proof. intros s H. repeat (destruct H as [<-|H]; [vm_compute; reflexivity|]). destruct H. Qed.
(** All five levels, and a word that is none *)
Example log_once_ex : Forall (fun s => wants_log (log_meta s) /\
    excluded no_ext (options_of (log_meta s)) "a.js" = false) levels /\ ~ wants_log (log_meta "loud").
Proof.
  split.
  - apply Forall_forall. intros s H. split; [exists s; split; [apply level_of; now right|exact H]|].
    repeat (destruct H as [<-|H]; [vm_compute; reflexivity|]). destruct H.
  - intros (s & E & H). rewrite (level_of "loud") in E by now left. injection E as <-. vm_compute in H.
    repeat (destruct H as [H|H]; [discriminate|]). exact H.
Qed.
