(** * NumO.v - exact arithmetic with an undefined value as an instance of [Num].

    [None] is an undefined number: quotients by zero, roots and logarithms
    outside their domains and everything computed from them.  As a NaN it
    compares false with everything.  (IEEE-754 tells infinities from NaN; here
    both are undefined.)  There are no junk values, so theorems need no guards. *)
From Coq Require Import ZArith List Bool Reals Lra.
From Verif Require Import Num NumR.
Open Scope R_scope.

Definition lift1 (f : R -> R) (x : option R) : option R := option_map f x.
Definition lift2 (f : R -> R -> R) (x y : option R) : option R :=
  match x, y with Some a, Some b => Some (f a b) | _, _ => None end.
Definition on (dom : R -> bool) (f : R -> R) (x : option R) : option R :=
  match x with Some a => if dom a then Some (f a) else None | None => None end.
Definition compare (f : R -> R -> bool) (x y : option R) : bool :=
  match x, y with Some a, Some b => f a b | _, _ => false end.
Definition Odiv (x y : option R) : option R :=
  match x, y with Some a, Some b => if Req_EM_T b 0 then None else Some (a / b) | _, _ => None end.
Definition Opowf (x y : option R) : option R :=
  match x, y with
  | Some a, Some b =>
      if Rlt_dec 0 a then Some (Rpower a b)
      else if Req_EM_T a 0 then (if Rlt_dec b 0 then None else if Req_EM_T b 0 then Some 1 else Some 0)
      else if Req_EM_T (IZR (Int_part b)) b then Some (powerRZ a (Int_part b)) else None
  | _, _ => None
  end.
Definition Opowi (x : option R) (n : Z) : option R :=
  match x with
  | Some a => if (n <? 0)%Z && Reqb' a 0 then None else Some (powerRZ a n)
  | None => None
  end.

Definition NumO : Num (option R) := {|
  nadd := lift2 Rplus; nsub := lift2 Rminus; nmul := lift2 Rmult; ndiv := Odiv;
  nneg := lift1 Ropp; nabs := lift1 Rabs;
  nsqrt := on (Rleb 0) sqrt; nexp := lift1 exp; nln := on (Rltb 0) ln; nsin := lift1 sin; ncos := lift1 cos;
  nasin := on (fun a => Rleb (-1) a && Rleb a 1) asin; nacos := on (fun a => Rleb (-1) a && Rleb a 1) acos;
  natan2 := lift2 Ratan2; npowf := Opowf; npowi := Opowi;
  nlt := compare Rltb; nle := compare Rleb; neqb := compare Reqb';
  nis_nan := fun x => match x with Some _ => false | None => true end;
  nlt_inf := fun x => match x with Some _ => true | None => false end;
  nlit := fun m e => Some (Rlit m e); npi := Some PI; nfrac_2_sqrt_pi := Some (2 / sqrt PI); nsqrt_2 := Some (sqrt 2);
  neps := Some (/ IZR (2 ^ 52)); nmax_value := Some (IZR ((2 ^ 53 - 1) * 2 ^ 971));
  nfloor := lift1 (fun x => IZR (Int_part x));
  nto_i32 := fun x => match x with Some a => Rto_i32 a | None => 0%Z end;
  nsignum := lift1 Rsignum |}.
