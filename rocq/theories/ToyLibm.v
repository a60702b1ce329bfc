(** * ToyLibm.v - an executable mathematical library for concrete binary64 runs.

    The statements about binary64 hold for every library ([Libm] is a
    parameter); this one, from truncated power series, is only used to run the
    model on concrete inputs, as evidence that hypotheses can be met. *)
From Coq Require Import ZArith List Bool Floats.SpecFloat.
From Verif Require Import Num NumSF.
Import ListNotations.
Open Scope Z_scope.

Local Notation sadd := (SFadd prec emax).
Local Notation ssub := (SFsub prec emax).
Local Notation smul := (SFmul prec emax).
Local Notation sdiv := (SFdiv prec emax).
Local Notation ssqrt := (SFsqrt prec emax).
Definition sZ (z : Z) : spec_float := sf_lit z 0.
Definition s_pi : spec_float := sf_lit 314159265358979323846 (-20).
Definition s_ln2 : spec_float := sf_lit 69314718055994530942 (-20).
(** c_0 + c_1 x + ... *)
Definition horner (cs : list spec_float) (x : spec_float) : spec_float :=
  fold_right (fun c acc => sadd c (smul x acc)) (sZ 0) cs.
Fixpoint fact (n : nat) : Z := match n with O => 1 | S k => Z.of_nat n * fact k end.
Definition exp_coefficients : list spec_float := map (fun n => sdiv (sZ 1) (sZ (fact n))) (seq 0 16).
(** multiplication by 2^k *)
Definition scale (x : spec_float) (k : Z) : spec_float :=
  smul (smul x (S754_finite false 1 (k / 2))) (S754_finite false 1 (k - k / 2)).
Definition s_exp (x : spec_float) : spec_float :=
  match x with
  | S754_nan => S754_nan
  | S754_zero _ => sZ 1
  | S754_infinity s => if s then sZ 0 else x
  | S754_finite s _ _ =>
      if SFltb (sZ 1024) (SFabs x) then (if s then sZ 0 else S754_infinity false)
      else
        let k := sf_to_i32 (sf_floor (sdiv x s_ln2)) in
        scale (horner exp_coefficients (ssub x (smul (sZ k) s_ln2))) k
  end.
Definition atanh_coefficients : list spec_float := map (fun n => sdiv (sZ 1) (sZ (2 * Z.of_nat n + 1))) (seq 0 22).
Definition s_ln (x : spec_float) : spec_float :=
  match x with
  | S754_nan => S754_nan
  | S754_zero _ => S754_infinity true
  | S754_infinity s => if s then S754_nan else x
  | S754_finite true _ _ => S754_nan
  | S754_finite false m e =>
      let k := Z.log2 (Zpos m) in
      let y := S754_finite false m (- k) in       (* in [1, 2) *)
      let t := sdiv (ssub y (sZ 1)) (sadd y (sZ 1)) in
      sadd (smul (sZ (e + k)) s_ln2) (smul (smul (sZ 2) t) (horner atanh_coefficients (smul t t)))
  end.
Definition sin_coefficients : list spec_float := map (fun n => sdiv (sZ ((-1) ^ Z.of_nat n)) (sZ (fact (2 * n + 1)))) (seq 0 12).
Definition s_sin (x : spec_float) : spec_float :=
  let tau := smul (sZ 2) s_pi in
  let y := ssub x (smul tau (sf_floor (sadd (sdiv x tau) (sf_lit 5 (-1))))) in    (* in [-pi, pi] *)
  smul y (horner sin_coefficients (smul y y)).
Definition s_cos (x : spec_float) : spec_float := s_sin (sadd x (sdiv s_pi (sZ 2))).
Definition atan_coefficients : list spec_float := map (fun n => sdiv (sZ ((-1) ^ Z.of_nat n)) (sZ (2 * Z.of_nat n + 1))) (seq 0 16).
Definition half_angle (x : spec_float) : spec_float := sdiv x (sadd (sZ 1) (ssqrt (sadd (sZ 1) (smul x x)))).
Definition s_atan (x : spec_float) : spec_float :=
  let y := half_angle (half_angle x) in
  smul (sZ 4) (smul y (horner atan_coefficients (smul y y))).
Definition s_atan2 (y x : spec_float) : spec_float :=
  if SFltb (sZ 0) x then s_atan (sdiv y x)
  else if SFltb x (sZ 0) then sadd (s_atan (sdiv y x)) (if SFltb y (sZ 0) then SFopp s_pi else s_pi)
  else if SFltb (sZ 0) y then sdiv s_pi (sZ 2)
  else if SFltb y (sZ 0) then SFopp (sdiv s_pi (sZ 2))
  else if sf_is_nan x || sf_is_nan y then S754_nan else sZ 0.
Definition s_asin (x : spec_float) : spec_float := s_atan2 x (ssqrt (ssub (sZ 1) (smul x x))).
Definition s_acos (x : spec_float) : spec_float := ssub (sdiv s_pi (sZ 2)) (s_asin x).
Definition s_powf (x y : spec_float) : spec_float :=
  if SFeqb y (sZ 2) then smul x x
  else if SFeqb y (sZ 0) then sZ 1
  else s_exp (smul y (s_ln x)).
Definition series_libm : Libm := {|
  lm_exp := s_exp; lm_ln := s_ln; lm_sin := s_sin; lm_cos := s_cos; lm_asin := s_asin; lm_acos := s_acos;
  lm_atan2 := s_atan2; lm_powf := s_powf; lm_powi := sf_powi |}.
Definition near (a b : spec_float) : bool := SFltb (SFabs (ssub a b)) (sf_lit 1 (-12)).
Example series_values :
  near (s_exp (sZ 1)) (sf_lit 271828182845904523536 (-20)) && near (s_ln (sZ 10)) (sf_lit 230258509299404568402 (-20)) &&
  near (s_sin (sZ 1)) (sf_lit 84147098480789650665 (-20)) && near (s_cos (sZ 2)) (sf_lit (-41614683654714238700) (-20)) &&
  near (s_atan2 (sZ 1) (sZ (-1))) (sf_lit 235619449019234492885 (-20)) && near (s_acos (sf_lit 5 (-1))) (sf_lit 104719755119659774615 (-20)) &&
  near (s_powf (sZ 2) (sf_lit 5 (-1))) (sf_lit 141421356237309504880 (-20)) = true.
Proof. vm_compute. reflexivity. Qed.
