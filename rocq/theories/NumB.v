(** * NumB.v - binary64 with valid data only.

    [NumSF] computes on [spec_float], which also contains representations that
    are no double.  Here the numbers are exactly the IEEE-754 binary64 data
    (Flocq's [binary_float 53 1024]: zeros, infinities, one NaN and the bounded
    mantissa/exponent pairs), with the same operations: the lemmas below show
    that every operation is the one of [NumSF]. *)
From Coq Require Import ZArith List Bool Floats.SpecFloat.
From Flocq Require Import Core BinarySingleNaN.
From Verif Require Import Num NumSF.
Import ListNotations.
Open Scope Z_scope.

#[global] Instance prec_pos : Prec_gt_0 prec := eq_refl.
#[global] Instance prec_small : Prec_lt_emax prec emax := eq_refl.
Definition f64 : Type := binary_float prec emax.
(** the double a representation stands for; NaN if it is none *)
Definition of_sf (x : spec_float) : f64 :=
  match bool_dec (valid_binary prec emax x) true with
  | left H => SF2B x H
  | right _ => B754_nan
  end.

(** the functions not fixed by IEEE-754 *)
Record LibmB : Type := mkLibmB {
  lb_exp : f64 -> f64; lb_ln : f64 -> f64; lb_sin : f64 -> f64; lb_cos : f64 -> f64;
  lb_asin : f64 -> f64; lb_acos : f64 -> f64; lb_atan2 : f64 -> f64 -> f64;
  lb_powf : f64 -> f64 -> f64; lb_powi : f64 -> Z -> f64 }.

Definition NumB (lm : LibmB) : Num f64 := {|
  nadd := Bplus mode_NE;
  nsub := Bminus mode_NE;
  nmul := Bmult mode_NE;
  ndiv := Bdiv mode_NE;
  nneg := Bopp;
  nabs := Babs;
  nsqrt := Bsqrt mode_NE;
  nexp := lb_exp lm;
  nln := lb_ln lm;
  nsin := lb_sin lm;
  ncos := lb_cos lm;
  nasin := lb_asin lm;
  nacos := lb_acos lm;
  natan2 := lb_atan2 lm;
  npowf := lb_powf lm;
  npowi := lb_powi lm;
  nlt := Bltb;
  nle := Bleb;
  neqb := Beqb;
  nis_nan := is_nan;
  nlt_inf := fun x => Bltb x (B754_infinity false);
  nlit := fun m e => of_sf (sf_lit m e);
  npi := of_sf (sf_lit 314159265358979323846 (-20));
  nfrac_2_sqrt_pi := of_sf (sf_lit 112837916709551257390 (-20));
  nsqrt_2 := of_sf (sf_lit 141421356237309504880 (-20));
  neps := of_sf (sf_lit 22204460492503131 (-32));
  nmax_value := of_sf (S754_finite false (2 ^ 53 - 1) 971);
  nfloor := fun x => of_sf (sf_floor (B2SF x));
  nto_i32 := fun x => sf_to_i32 (B2SF x);
  nsignum := fun x => of_sf (sf_signum (B2SF x)) |}.

(** a library on representations, restricted to doubles *)
Definition libm_on_doubles (lm : Libm) : LibmB :=
  let f1 f := fun x => of_sf (f (B2SF x)) in
  {| lb_exp := f1 (lm_exp lm); lb_ln := f1 (lm_ln lm); lb_sin := f1 (lm_sin lm); lb_cos := f1 (lm_cos lm);
     lb_asin := f1 (lm_asin lm); lb_acos := f1 (lm_acos lm);
     lb_atan2 := fun x y => of_sf (lm_atan2 lm (B2SF x) (B2SF y));
     lb_powf := fun x y => of_sf (lm_powf lm (B2SF x) (B2SF y));
     lb_powi := fun x n => of_sf (lm_powi lm (B2SF x) n) |}.

(** ** The operations are those of [NumSF] (after Flocq's PrimFloat.v, without
    its primitive floats) *)
Lemma of_sf_valid x : valid_binary prec emax x = true -> B2SF (of_sf x) = x.
Proof. intro H. unfold of_sf. destruct (bool_dec _ true) as [K|K]; [apply B2SF_SF2B|contradiction]. Qed.
Lemma round_nearest_even_equiv s m l : round_nearest_even m l = choice_mode mode_NE s m l.
Proof. case l; [reflexivity|intro c]. case c; [|reflexivity..]. now simpl; unfold Round.cond_incr; case Z.even. Qed.
Lemma binary_round_aux_equiv sx mx ex lx :
  SpecFloat.binary_round_aux prec emax sx mx ex lx = binary_round_aux prec emax mode_NE sx mx ex lx.
Proof.
  unfold SpecFloat.binary_round_aux, binary_round_aux. set (mrse' := shr_fexp _ _ _).
  case mrse'; intros mrs' e'; simpl. now rewrite (round_nearest_even_equiv sx).
Qed.
Lemma binary_round_equiv s m e : SpecFloat.binary_round prec emax s m e = binary_round prec emax mode_NE s m e.
Proof.
  unfold SpecFloat.binary_round, binary_round, shl_align_fexp.
  set (mez := shl_align _ _ _); case mez as [mz ez]. apply binary_round_aux_equiv.
Qed.
Lemma binary_normalize_equiv m e szero :
  SpecFloat.binary_normalize prec emax m e szero = B2SF (binary_normalize prec emax prec_pos prec_small mode_NE m e szero).
Proof.
  case m as [|p|p].
  - now simpl.
  - simpl; rewrite B2SF_SF2B; apply binary_round_equiv.
  - simpl; rewrite B2SF_SF2B; apply binary_round_equiv.
Qed.
Lemma same_mul (x y : f64) : B2SF (Bmult mode_NE x y) = SFmul prec emax (B2SF x) (B2SF y).
Proof.
  case x as [sx|sx| |sx mx ex Bx]; case y as [sy|sy| |sy my ey By]; [now trivial..|].
  simpl. rewrite B2SF_SF2B. symmetry. apply binary_round_aux_equiv.
Qed.
Lemma same_add (x y : f64) : B2SF (Bplus mode_NE x y) = SFadd prec emax (B2SF x) (B2SF y).
Proof.
  case x as [sx|sx| |sx mx ex Bx]; case y as [sy|sy| |sy my ey By]; [now (trivial || simpl; case Bool.eqb)..|].
  symmetry. apply binary_normalize_equiv.
Qed.
Lemma same_sub (x y : f64) : B2SF (Bminus mode_NE x y) = SFsub prec emax (B2SF x) (B2SF y).
Proof.
  case x as [sx|sx| |sx mx ex Bx]; case y as [sy|sy| |sy my ey By]; [now (trivial || simpl; case Bool.eqb)..|].
  simpl. unfold Zminus. rewrite <- cond_Zopp_negb. symmetry. apply binary_normalize_equiv.
Qed.
Lemma same_div (x y : f64) : B2SF (Bdiv mode_NE x y) = SFdiv prec emax (B2SF x) (B2SF y).
Proof.
  case x as [sx|sx| |sx mx ex Bx]; case y as [sy|sy| |sy my ey By]; [now (trivial || simpl; case Bool.eqb)..|].
  simpl. rewrite B2SF_SF2B. set (melz := SFdiv_core_binary _ _ _ _ _ _). case melz as [[mz ez] lz].
  symmetry. apply binary_round_aux_equiv.
Qed.
Lemma same_sqrt (x : f64) : B2SF (Bsqrt mode_NE x) = SFsqrt prec emax (B2SF x).
Proof.
  case x as [sx|sx| |sx mx ex Bx]; [now (trivial || case sx)..|]. case sx; [reflexivity|].
  simpl. rewrite B2SF_SF2B. set (melz := SFsqrt_core_binary _ _ _ _). case melz as [[mz ez] lz].
  symmetry. apply binary_round_aux_equiv.
Qed.
Lemma same_opp (x : f64) : B2SF (Bopp x) = SFopp (B2SF x).
Proof. now destruct x. Qed.
Lemma same_abs (x : f64) : B2SF (Babs x) = SFabs (B2SF x).
Proof. now destruct x. Qed.
Lemma same_compare (x y : f64) : Bltb x y = SFltb (B2SF x) (B2SF y) /\ Bleb x y = SFleb (B2SF x) (B2SF y) /\
  Beqb x y = SFeqb (B2SF x) (B2SF y).
Proof. repeat split. Qed.
