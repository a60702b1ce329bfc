(** * NumSF.v - IEEE-754 binary64 as an instance of [Num].

    The exactly specified operations (+ - * / sqrt abs neg, comparisons,
    literals, floor, the cast to i32) are Coq's executable specification of
    IEEE-754 with round-to-nearest-even (Coq.Floats.SpecFloat), instantiated at
    precision 53, emax 1024.  The library functions whose rounding IEEE-754
    does not fix (exp, ln, sin, ...) are a parameter of the instance. *)
From Coq Require Import ZArith List Bool Floats.SpecFloat.
From Verif Require Import Num.
Import ListNotations.
Open Scope Z_scope.

Definition prec : Z := 53.
Definition emax : Z := 1024.

(** m * 10^e, correctly rounded (decimal literal conversion) *)
Definition sf_lit (m e : Z) : spec_float :=
  match e with
  | Zneg p =>
      match m with
      | Z0 => S754_zero false
      | Zpos k => SFdiv prec emax (S754_finite false k 0) (S754_finite false (Pos.pow 10 p) 0)
      | Zneg k => SFdiv prec emax (S754_finite true k 0) (S754_finite false (Pos.pow 10 p) 0)
      end
  | _ => binary_normalize prec emax (m * 10 ^ e) 0 false
  end.

Definition sf_is_nan (x : spec_float) : bool :=
  match x with S754_nan => true | _ => false end.

(** the integer part, rounding towards zero; [None] for infinities and NaN *)
Definition sf_trunc (x : spec_float) : option Z :=
  match x with
  | S754_zero _ => Some 0
  | S754_finite s m e =>
      let a := Z.shiftl (Zpos m) e in
      Some (if s then - a else a)
  | _ => None
  end.
(** [x as i32] *)
Definition sf_to_i32 (x : spec_float) : Z :=
  match x with
  | S754_nan => 0
  | S754_infinity true => - 2 ^ 31
  | S754_infinity false => 2 ^ 31 - 1
  | _ => match sf_trunc x with
         | Some z => Z.max (- 2 ^ 31) (Z.min (2 ^ 31 - 1) z)
         | None => 0
         end
  end.
(** [x.floor()] *)
Definition sf_floor (x : spec_float) : spec_float :=
  match x with
  | S754_finite s m e =>
      if 0 <=? e then x
      else
        let q := Z.shiftr (if s then Zneg m else Zpos m) (- e) in
        match q with
        | Z0 => S754_zero s
        | _ => binary_normalize prec emax q 0 s
        end
  | _ => x
  end.
(** [x.signum()] *)
Definition sf_signum (x : spec_float) : spec_float :=
  match x with
  | S754_nan => S754_nan
  | S754_zero s | S754_infinity s | S754_finite s _ _ =>
      if s then sf_lit (-1) 0 else sf_lit 1 0
  end.

(** the functions not fixed by IEEE-754 *)
Record Libm : Type := mkLibm {
  lm_exp : spec_float -> spec_float;
  lm_ln : spec_float -> spec_float;
  lm_sin : spec_float -> spec_float;
  lm_cos : spec_float -> spec_float;
  lm_asin : spec_float -> spec_float;
  lm_acos : spec_float -> spec_float;
  lm_atan2 : spec_float -> spec_float -> spec_float;
  lm_powf : spec_float -> spec_float -> spec_float;
  lm_powi : spec_float -> Z -> spec_float }.

Definition NumSF (lm : Libm) : Num spec_float := {|
  nadd := SFadd prec emax;
  nsub := SFsub prec emax;
  nmul := SFmul prec emax;
  ndiv := SFdiv prec emax;
  nneg := SFopp;
  nabs := SFabs;
  nsqrt := SFsqrt prec emax;
  nexp := lm_exp lm;
  nln := lm_ln lm;
  nsin := lm_sin lm;
  ncos := lm_cos lm;
  nasin := lm_asin lm;
  nacos := lm_acos lm;
  natan2 := lm_atan2 lm;
  npowf := lm_powf lm;
  npowi := lm_powi lm;
  nlt := SFltb;
  nle := SFleb;
  neqb := SFeqb;
  nis_nan := sf_is_nan;
  nlt_inf := fun x => SFltb x (S754_infinity false);
  nlit := sf_lit;
  npi := sf_lit 314159265358979323846 (-20);
  nfrac_2_sqrt_pi := sf_lit 112837916709551257390 (-20);
  nsqrt_2 := sf_lit 141421356237309504880 (-20);
  neps := sf_lit 22204460492503131 (-32);
  nmax_value := S754_finite false (2 ^ 53 - 1) 971;
  nfloor := sf_floor;
  nto_i32 := sf_to_i32;
  nsignum := sf_signum |}.

(** powi as an iterated product, powi(x, -n) = 1 / powi(x, n) *)
Definition sf_powi (x : spec_float) (n : Z) : spec_float :=
  let up k := Nat.iter (Z.to_nat k) (fun acc => SFmul prec emax acc x) (sf_lit 1 0) in
  if n <? 0 then SFdiv prec emax (sf_lit 1 0) (up (- n)) else up n.

(** A deliberately crude library, good enough to run the model on concrete
    inputs: constants for the trigonometric functions and for powf. *)
Definition toy_libm : Libm := {|
  lm_exp := fun _ => sf_lit 1 0;
  lm_ln := fun _ => sf_lit (-1) 0;
  lm_sin := fun _ => sf_lit 6 (-1);
  lm_cos := fun _ => sf_lit 8 (-1);
  lm_asin := fun x => x;
  lm_acos := fun x => x;
  lm_atan2 := fun _ _ => sf_lit 5 (-1);
  lm_powf := fun _ _ => sf_lit 1 0;
  lm_powi := sf_powi |}.

Example lit_tenth : sf_lit 1 (-1) = S754_finite false 7205759403792794 (-56).
Proof. reflexivity. Qed.
Example eps_is_2_52 : neps (F := spec_float) (Num := NumSF toy_libm) = S754_finite false 4503599627370496 (-104).
Proof. reflexivity. Qed.
Example pi_is_pi : npi (F := spec_float) (Num := NumSF toy_libm) = S754_finite false 7074237752028440 (-51).
Proof. reflexivity. Qed.
Example floor_half : sf_floor (sf_lit (-5) (-1)) = sf_lit (-1) 0 /\ sf_to_i32 (sf_lit (-15) (-1)) = -1.
Proof. split; reflexivity. Qed.
