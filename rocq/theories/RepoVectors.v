(** The repository's own unit tests of [create_coverage_data_object]
    (create_coverage_data_object.rs:463-942), run on the model: the hash depends on every byte of the
    serialized record. *)
From Coq Require Import NArith String List Bool.
Import ListNotations.
From Verif Require Import Base IndexMap Oxide SipHash Json CovJson DataObject SourceCov.
Open Scope string_scope.

Definition hash_of (sc : source_cov) : string := fst (coverage_data_object (sc_fc sc)).
Definition rl_path (name : N) (r : range) (sc : source_cov) : option string :=
  match add_branch_path name r sc with Ok (sc', _) => Some (hash_of sc') | _ => None end.

(** should_create_empty_all, should_create_empty_report_logic *)
Example vector_all : fc_hash (mkFC true "anon" [] [] [] [] [] [] None None) = "9996448737459597674".
Proof. vm_compute. reflexivity. Qed.
Example vector_report_logic : fc_hash (fc_empty "/test/src/file.js" true) = "5324777076056671972".
Proof. vm_compute. reflexivity. Qed.
(** should_create_statement_map *)
Definition statement_1 := fst (new_statement (range_new 2 3 5 2) (sc_new "/test/src/statement.js" false)).
Example vector_statement_1 : hash_of statement_1 = "14358638674647738158".
Proof. vm_compute. reflexivity. Qed.
Example vector_statement_2 : hash_of (fst (new_statement (range_new 4 9 3 6) statement_1)) = "8495704048820686839".
Proof. vm_compute. reflexivity. Qed.
(** should_create_fn_map *)
Definition fn_1 := fst (new_function (Some "named_function") (range_new 2 3 2 10) (range_new 2 3 5 2) (sc_new "/test/src/fn.js" false)).
Example vector_fn_1 : hash_of fn_1 = "12684468276621003816".
Proof. vm_compute. reflexivity. Qed.
Example vector_fn_2 : hash_of (fst (new_function None (range_new 4 9 4 25) (range_new 4 9 3 6) fn_1)) = "8413193639409683826".
Proof. vm_compute. reflexivity. Qed.
(** should_create_new_branch *)
Definition branch_1 := fst (new_branch BSwitch (range_new 2 3 5 2) false (sc_new "/test/src/branch.js" false)).
Example vector_branch_1 : hash_of branch_1 = "16290170317654300968".
Proof. vm_compute. reflexivity. Qed.
Example vector_branch_2 : hash_of (fst (new_branch BinaryExpr (range_new 6 4 2 8) true branch_1)) = "394046461779423801".
Proof. vm_compute. reflexivity. Qed.
(** should_add_branch_path *)
Definition path_0 := fst (new_branch BSwitch (range_new 2 3 5 2) false (sc_new "/test/src/branch_path.js" false)).
Example vector_path_1 : rl_path 0 (range_new 3 4 5 4) path_0 = Some "1206056395566328244".
Proof. vm_compute. reflexivity. Qed.
Definition path_2 : res string :=
  let* (s1, _) := add_branch_path 0 (range_new 3 4 5 4) path_0 in
  let (s2, b) := new_branch BinaryExpr (range_new 6 4 2 8) true s1 in
  let* (s3, _) := add_branch_path b (range_new 3 4 5 4) s2 in
  Ok (hash_of s3).
Example vector_path_2 : path_2 = Ok "5849348874565150566".
Proof. vm_compute. reflexivity. Qed.
