(** IEEE-754 single/double operations used by [percent.rs] and
    [get_branch_coverage_by_line], on top of Coq's [SpecFloat]. *)
From Coq Require Import ZArith NArith Bool Lia List.
From Coq Require Import Floats.SpecFloat.
Import ListNotations.
Open Scope Z_scope.

Definition f32 := spec_float.
Definition f64 := spec_float.

(** [n as f32], [n as f64]: round to nearest, ties to even *)
Definition f32_of_Z (z : Z) : f32 := binary_normalize 24 128 z 0 false.
Definition f64_of_Z (z : Z) : f64 := binary_normalize 53 1024 z 0 false.

(** [x as f32] for an f64 *)
Definition f64_to_f32 (x : f64) : f32 :=
  match x with
  | S754_finite s m e => binary_normalize 24 128 (if s then Z.neg m else Z.pos m) e s
  | _ => x
  end.

Definition f32_div (x y : f32) : f32 := SFdiv 24 128 x y.
Definition f32_mul (x y : f32) : f32 := SFmul 24 128 x y.

(** [f32::floor] *)
Definition f32_floor (x : f32) : f32 :=
  match x with
  | S754_finite s m e =>
      if 0 <=? e then x
      else
        let z := (if s then Z.neg m else Z.pos m) / 2 ^ (- e) in
        binary_normalize 24 128 z 0 s
  | _ => x
  end.

(** The exact rational value [num / den] of a finite float (den > 0). *)
Definition sf_num (x : spec_float) : Z :=
  match x with
  | S754_finite s m e => (if s then Z.neg m else Z.pos m) * 2 ^ (Z.max e 0)
  | _ => 0
  end.
Definition sf_den (x : spec_float) : Z :=
  match x with
  | S754_finite s m e => 2 ^ (Z.max (- e) 0)
  | _ => 1
  end.
Definition sf_finite (x : spec_float) : bool :=
  match x with S754_finite _ _ _ | S754_zero _ => true | _ => false end.
