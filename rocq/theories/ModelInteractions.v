(** * ModelInteractions.v - interactions.rs *)
From Coq Require Import ZArith List Bool.
From Verif Require Import Num ModelTypes ModelConsts.
Import ListNotations.
Open Scope Z_scope.
Open Scope num_scope.

Section Interactions.
  Context {F : Type} {NF : Num F}.
  Notation lit := nlit.

  (** interactions.rs 4-13 *)
  Definition crossing_point_doca (ip : InteractionPotential F) : F :=
    match ip with
    | LENNARD_JONES_12_6 sigma _ | LENNARD_JONES_65_6 sigma _ => sigma
    | MORSE D alpha r0 => (alpha *! r0 -! nln (nZ 2)) /! alpha
    | WW => nZ 50 *! cANGSTROM
    | _ => nZ 10 *! cANGSTROM
    end.

  (** interactions.rs 15-17 *)
  Definition sigmoid (x k x0 : F) : F :=
    nZ 1 /! (nZ 1 +! nexp ((-! k) *! (x -! x0))).

  (** interactions.rs 475-505: screening functions and derivatives *)
  Definition moliere (xi : F) : F :=
    lit 35 (-2) *! nexp ((-! lit 3 (-1)) *! xi) +! lit 55 (-2) *! nexp ((-! lit 12 (-1)) *! xi)
    +! lit 10 (-2) *! nexp ((-! lit 60 (-1)) *! xi).
  Definition kr_c (xi : F) : F :=
    lit 190945 (-6) *! nexp ((-! lit 278544 (-6)) *! xi) +! lit 473674 (-6) *! nexp ((-! lit 637174 (-6)) *! xi)
    +! lit 335381 (-6) *! nexp ((-! lit 1919249 (-6)) *! xi).
  Definition zbl (xi : F) : F :=
    lit 2817 (-5) *! nexp ((-! lit 20162 (-5)) *! xi) +! lit 28022 (-5) *! nexp ((-! lit 40290 (-5)) *! xi)
    +! lit 50986 (-5) *! nexp ((-! lit 94229 (-5)) *! xi) +! lit 18175 (-5) *! nexp ((-! lit 31998 (-4)) *! xi).
  Definition lenz_jensen (xi : F) : F :=
    lit 1018 (-5) *! nexp ((-! lit 206 (-3)) *! xi) +! lit 24330 (-5) *! nexp ((-! lit 3876 (-4)) *! xi)
    +! lit 7466 (-4) *! nexp ((-! lit 1038 (-3)) *! xi).
  Definition diff_moliere (xi : F) : F :=
    (-! lit 35 (-2)) *! lit 3 (-1) *! nexp ((-! lit 3 (-1)) *! xi)
    -! lit 55 (-2) *! lit 12 (-1) *! nexp ((-! lit 12 (-1)) *! xi)
    -! lit 10 (-2) *! lit 60 (-1) *! nexp ((-! lit 60 (-1)) *! xi).
  Definition diff_kr_c (xi : F) : F :=
    (-! lit 278544 (-6)) *! lit 190945 (-6) *! nexp ((-! lit 278544 (-6)) *! xi)
    -! lit 637174 (-6) *! lit 473674 (-6) *! nexp ((-! lit 637174 (-6)) *! xi)
    -! lit 335381 (-6) *! lit 1919249 (-6) *! nexp ((-! lit 1919249 (-6)) *! xi).
  Definition diff_zbl (xi : F) : F :=
    (-! lit 20162 (-5)) *! lit 2817 (-5) *! nexp ((-! lit 20162 (-5)) *! xi)
    -! lit 40290 (-5) *! lit 28022 (-5) *! nexp ((-! lit 40290 (-5)) *! xi)
    -! lit 94229 (-5) *! lit 50986 (-5) *! nexp ((-! lit 94229 (-5)) *! xi)
    -! lit 31998 (-4) *! lit 18175 (-5) *! nexp ((-! lit 31998 (-4)) *! xi).
  Definition diff_lenz_jensen (xi : F) : F :=
    (-! lit 206 (-3)) *! lit 1018 (-5) *! nexp ((-! lit 206 (-3)) *! xi)
    -! lit 3876 (-4) *! lit 24330 (-5) *! nexp ((-! lit 3876 (-4)) *! xi)
    -! lit 1038 (-3) *! lit 7466 (-4) *! nexp ((-! lit 1038 (-3)) *! xi).

  (** interactions.rs 240-249 *)
  Definition phi (xi : F) (ip : InteractionPotential F) : Res F :=
    match ip with
    | MOLIERE => Ok (moliere xi)
    | KR_C => Ok (kr_c xi)
    | ZBL => Ok (zbl xi)
    | LENZ_JENSEN => Ok (lenz_jensen xi)
    | TRIDYN => Ok (kr_c xi)
    | _ => Panic ExplicitPanic
    end.
  (** interactions.rs 252-261 *)
  Definition dphi (xi : F) (ip : InteractionPotential F) : Res F :=
    match ip with
    | MOLIERE => Ok (diff_moliere xi)
    | KR_C => Ok (diff_kr_c xi)
    | ZBL => Ok (diff_zbl xi)
    | LENZ_JENSEN => Ok (diff_lenz_jensen xi)
    | TRIDYN => Ok (diff_kr_c xi)
    | _ => Panic ExplicitPanic
    end.

  (** interactions.rs 264-276 *)
  Definition screening_length (Za Zb : F) (ip : InteractionPotential F) : F :=
    let lindhard := lit 8853 (-4) *! cA0 *! npowf (nsqrt Za +! nsqrt Zb) (nZ (-2) /! nZ 3) in
    match ip with
    | ZBL => lit 88534 (-5) *! cA0 /! (npowf Za (lit 23 (-2)) +! npowf Zb (lit 23 (-2)))
    | MOLIERE | KR_C | LENZ_JENSEN | TRIDYN | WW => lindhard
    | LENNARD_JONES_12_6 _ _ | LENNARD_JONES_65_6 _ _ => lindhard
    | MORSE _ alpha _ => alpha
    | COULOMB Z1 Z2 => lit 88534 (-5) *! cA0 /! (npowf Z1 (lit 23 (-2)) +! npowf Z2 (lit 23 (-2)))
    | KRC_MORSE _ _ _ _ _ => lindhard
    | FOUR_EIGHT _ _ => lindhard
    end.

  (** interactions.rs 230-232 *)
  Definition screened_coulomb (r a Za Zb : F) (ip : InteractionPotential F) : Res F :=
    let! ph := phi (r /! a) ip in
    Ok (Za *! Zb *! cQ *! cQ /! nZ 4 /! npi /! cEPS0 /! r *! ph).

  (** interactions.rs 235-237 *)
  Definition coulomb (r Za Zb : F) : F :=
    Za *! Zb *! cQ *! cQ /! nZ 4 /! npi /! cEPS0 /! r.

  (** interactions.rs 328-332 *)
  Definition four_eight (r alpha beta : F) : F :=
    let a := npowf alpha (nZ 1 /! nZ 4) in
    let b := npowf beta (nZ 1 /! nZ 8) in
    (-! (npowi (a /! r) 4)) +! npowi (b /! r) 8.
  (** interactions.rs 335-337 *)
  Definition lennard_jones (r sigma epsilon : F) : F :=
    nZ 4 *! epsilon *! (npowf (sigma /! r) (nZ 12) -! npowf (sigma /! r) (nZ 6)).
  (** interactions.rs 340-342 *)
  Definition lennard_jones_65_6 (r sigma epsilon : F) : F :=
    nZ 4 *! epsilon *! (npowf (sigma /! r) (lit 65 (-1)) -! npowf (sigma /! r) (nZ 6)).
  (** interactions.rs 345-347 *)
  Definition morse (r D alpha r0 : F) : F :=
    D *! (nexp (nZ (-2) *! alpha *! (r -! r0)) -! nZ 2 *! nexp ((-! alpha) *! (r -! r0))).
  (** interactions.rs 350-352; the KR_C screening function never panics *)
  Definition krc_morse (r a Za Zb D alpha r0 k x0 : F) : F :=
    sigmoid r k x0 *! morse r D alpha r0
    +! sigmoid r (-! k) x0 *! (Za *! Zb *! cQ *! cQ /! nZ 4 /! npi /! cEPS0 /! r *! kr_c (r /! a)).

  (** interactions.rs 467-473 *)
  Definition heaviside (x : F) : F := if x >=! nZ 0 then nZ 1 else nZ 0.

  (** interactions.rs 398-450; the short-range branch is the ZBL screened
      Coulomb potential for tungsten. *)
  Definition ww_x1 : F := lit 110002200044 (-11).
  Definition ww_x2 : F := lit 210004200084 (-11).
  Definition ww_spline_coefficients : list F :=
    [ lit (-1036435865158945) (-16); lit (-2912948318493851) (-16); lit (-2096765499656263) (-15);
      lit 1916045452701010 (-14); lit (-4101619862085917) (-14); lit 4605205617244703 (-14);
      lit 2642203930654883 (-14); lit 1535211507804088 (-14); lit 1412806259323987 (-14) ].
  Definition ww_spline_delta : list F :=
    [ lit 4268900000000000 (-15); lit 3985680000000000 (-15); lit 3702460000000000 (-15);
      lit 3419240000000000 (-15); lit 3136020000000000 (-15); lit 2852800000000000 (-15);
      lit 2741100000000000 (-15); lit 2604045000000000 (-15); lit 2466990000000000 (-15) ].
  Definition tungsten_tungsten_cubic_spline (r : F) : F :=
    let x := r /! cANGSTROM in
    if x <=! ww_x1 then
      let a := screening_length (nZ 74) (nZ 74) ZBL in
      nZ 74 *! nZ 74 *! cQ *! cQ /! nZ 4 /! npi /! cEPS0 /! r *! zbl (r /! a)
    else if x <=! ww_x2 then
      (lit 1389653276380862 (-11)
       +! lit (-3596912431628216) (-11) *! x
       +! lit 3739206756369099 (-11) *! npowi x 2
       +! lit (-1933748081656593) (-11) *! npowi x 3
       +! lit 495516793802426 (-11) *! npowf x (nZ 4)
       +! lit (-50264585985867) (-11) *! npowf x (nZ 5)) *! cEV
    else
      nsum (map (fun ad => cEV *! fst ad *! npowi (snd ad -! x) 3 *! heaviside (snd ad -! x))
                (zip ww_spline_coefficients ww_spline_delta)).

  (** interactions.rs 20-48 *)
  Definition interaction_potential (r a Za Zb : F) (ip : InteractionPotential F) : Res F :=
    match ip with
    | MOLIERE | KR_C | LENZ_JENSEN | ZBL | TRIDYN => screened_coulomb r a Za Zb ip
    | LENNARD_JONES_12_6 sigma epsilon => Ok (lennard_jones r sigma epsilon)
    | LENNARD_JONES_65_6 sigma epsilon => Ok (lennard_jones_65_6 r sigma epsilon)
    | MORSE D alpha r0 => Ok (morse r D alpha r0)
    | WW => Ok (tungsten_tungsten_cubic_spline r)
    | COULOMB Za' Zb' => Ok (coulomb r Za' Zb')
    | KRC_MORSE D alpha r0 k x0 => Ok (krc_morse r a Za Zb D alpha r0 k x0)
    | FOUR_EIGHT alpha beta => Ok (four_eight r alpha beta)
    end.

  (** interactions.rs 51-60, used only as [relative_energy < threshold]
      (bca.rs 402): true means "below the threshold".  The thresholds are
      f64::INFINITY and 0. *)
  Definition below_energy_threshold_single_root (relative_energy : F) (ip : InteractionPotential F) : bool :=
    match ip with
    | MOLIERE | KR_C | LENZ_JENSEN | ZBL | TRIDYN => relative_energy <! nZ 0
    | _ => nlt_inf relative_energy
    end.

  (** interactions.rs 63-66 *)
  Definition doca_function (x0 beta reduced_energy : F) (ip : InteractionPotential F) : Res F :=
    let! ph := phi x0 ip in
    Ok (x0 -! ph /! reduced_energy -! beta *! beta /! x0).
  (** interactions.rs 69-72 *)
  Definition diff_doca_function (x0 beta reduced_energy : F) (ip : InteractionPotential F) : Res F :=
    let! dph := dphi x0 ip in
    Ok (beta *! beta /! x0 /! x0 -! dph /! reduced_energy +! nZ 1).
  (** interactions.rs 75-78 *)
  Definition doca_function_transformed (x0 beta reduced_energy : F) (ip : InteractionPotential F) : Res F :=
    let! ph := phi x0 ip in
    Ok (x0 *! x0 -! x0 *! ph /! reduced_energy -! beta *! beta).
  (** interactions.rs 81-84 *)
  Definition diff_doca_function_transformed (x0 beta reduced_energy : F) (ip : InteractionPotential F) : Res F :=
    let! ph := phi x0 ip in
    Ok (nZ 2 *! x0 -! ph /! reduced_energy).

  (** interactions.rs 355-360 *)
  Definition doca_four_eight (r impact_parameter relative_energy alpha beta : F) : F :=
    let a := npowf alpha (nZ 1 /! nZ 4) in
    let b := npowf beta (nZ 1 /! nZ 8) in
    let b4 := nsqrt beta in
    npowf (r /! b) (nZ 8) -! ((-! (a *! r /! b /! b)) +! nZ 1) /! relative_energy
    -! (impact_parameter *! npowf r (nZ 3) /! b4).
  (** interactions.rs 363-365 *)
  Definition doca_morse (r impact_parameter relative_energy D alpha r0 : F) : F :=
    npowi (r *! alpha) 2
    -! npowi (r *! alpha) 2 *! D /! relative_energy
       *! (nexp (nZ (-2) *! alpha *! (r -! r0)) -! nZ 2 *! nexp ((-! alpha) *! (r -! r0)))
    -! npowi (impact_parameter *! alpha) 2.
  (** interactions.rs 368-370 *)
  Definition doca_krc_morse (r impact_parameter relative_energy a Za Zb D alpha r0 k x0 : F) : F :=
    npowi (r *! alpha) 2
    -! npowi (r *! alpha) 2 /! relative_energy *! krc_morse r a Za Zb D alpha r0 k x0
    -! npowi (impact_parameter *! alpha) 2.
  (** interactions.rs 373-375 *)
  Definition diff_doca_morse (r impact_parameter relative_energy D alpha r0 : F) : F :=
    nZ 2 *! npowi alpha 2 *! r
    -! nZ 2 *! npowi alpha 2 *! D *! r *! nexp (nZ (-2) *! alpha *! (r -! r0) -! nZ 1)
       *! (alpha *! r *! nexp (alpha *! (r -! r0)) -! nZ 2 *! nexp (alpha *! (r -! r0)) -! r *! alpha +! nZ 1).
  (** interactions.rs 378-380 *)
  Definition doca_lennard_jones_65_6 (r p relative_energy sigma epsilon : F) : F :=
    npowf (r /! sigma) (lit 65 (-1))
    -! nZ 4 *! epsilon /! relative_energy *! (nZ 1 -! npowf (r /! sigma) (lit 5 (-1)))
    -! npowi (p /! sigma) 2 *! npowf (r /! sigma) (lit 45 (-1)).
  (** interactions.rs 383-385 *)
  Definition doca_lennard_jones (r p relative_energy sigma epsilon : F) : F :=
    npowf (r /! sigma) (nZ 12)
    -! nZ 4 *! epsilon /! relative_energy *! (nZ 1 -! npowf (r /! sigma) (nZ 6))
    -! npowi p 2 *! npowf r (nZ 10) /! npowf sigma (nZ 12).
  (** interactions.rs 388-390 *)
  Definition diff_doca_lennard_jones (r p relative_energy sigma epsilon : F) : F :=
    nZ 12 *! npowf (r /! sigma) (nZ 11) /! sigma
    +! nZ 4 *! epsilon /! relative_energy *! nZ 6 *! npowf (r /! sigma) (nZ 5) /! sigma
    -! nZ 10 *! npowi p 2 *! npowf r (nZ 9) /! npowf sigma (nZ 12).
  (** interactions.rs 393-395 *)
  Definition diff_doca_lennard_jones_65_6 (r p relative_energy sigma epsilon : F) : F :=
    lit 65 (-1) *! npowf (r /! sigma) (lit 55 (-1)) /! sigma
    +! nZ 4 *! epsilon /! relative_energy *! lit 5 (-1) *! npowf (sigma *! r) (-! lit 5 (-1))
    -! npowi (p /! sigma) 2 *! lit 45 (-1) *! npowf (r /! sigma) (lit 35 (-1)) /! sigma.

  (** interactions.rs 453-465; the short-range branch calls the
      singularity-free function with ZBL, which can panic on NaN. *)
  Definition doca_tungsten_tungsten_cubic_spline (r p relative_energy : F) : Res F :=
    let x := r /! cANGSTROM in
    if x <=! ww_x1 then
      if nis_nan r then Panic ExplicitPanic
      else
        let a := screening_length (nZ 74) (nZ 74) ZBL in
        let reduced_energy := cLINDHARD_REDUCED_ENERGY_PREFACTOR *! a /! nZ 74 /! nZ 74 *! relative_energy in
        let beta := p /! a in
        doca_function_transformed (r /! a) beta reduced_energy ZBL
    else
      Ok (npowi (r /! cANGSTROM) 2
          -! npowi (r /! cANGSTROM) 2 *! tungsten_tungsten_cubic_spline r /! relative_energy
          -! npowi p 2 /! npowi cANGSTROM 2).

  (** interactions.rs 87-116 *)
  Definition distance_of_closest_approach_function
      (r a Za Zb relative_energy impact_parameter : F) (ip : InteractionPotential F) : Res F :=
    match ip with
    | MOLIERE | KR_C | LENZ_JENSEN | ZBL | TRIDYN =>
        let a := screening_length Za Zb ip in
        let reduced_energy := cLINDHARD_REDUCED_ENERGY_PREFACTOR *! a /! Za /! Zb *! relative_energy in
        let beta := impact_parameter /! a in
        doca_function (r /! a) beta reduced_energy ip
    | LENNARD_JONES_12_6 sigma epsilon => Ok (doca_lennard_jones r impact_parameter relative_energy sigma epsilon)
    | LENNARD_JONES_65_6 sigma epsilon => Ok (doca_lennard_jones_65_6 r impact_parameter relative_energy sigma epsilon)
    | MORSE D alpha r0 => Ok (doca_morse r impact_parameter relative_energy D alpha r0)
    | WW => doca_tungsten_tungsten_cubic_spline r impact_parameter relative_energy
    | KRC_MORSE D alpha r0 k x0 => Ok (doca_krc_morse r impact_parameter relative_energy a Za Zb D alpha r0 k x0)
    | FOUR_EIGHT alpha beta => Ok (doca_four_eight r impact_parameter relative_energy alpha beta)
    | COULOMB _ _ => Panic ExplicitPanic
    end.

  (** interactions.rs 119-150 *)
  Definition distance_of_closest_approach_function_singularity_free
      (r a Za Zb relative_energy impact_parameter : F) (ip : InteractionPotential F) : Res F :=
    if nis_nan r then Panic ExplicitPanic else
    match ip with
    | MOLIERE | KR_C | LENZ_JENSEN | ZBL | TRIDYN =>
        let a := screening_length Za Zb ip in
        let reduced_energy := cLINDHARD_REDUCED_ENERGY_PREFACTOR *! a /! Za /! Zb *! relative_energy in
        let beta := impact_parameter /! a in
        doca_function_transformed (r /! a) beta reduced_energy ip
    | LENNARD_JONES_12_6 sigma epsilon => Ok (doca_lennard_jones r impact_parameter relative_energy sigma epsilon)
    | LENNARD_JONES_65_6 sigma epsilon => Ok (doca_lennard_jones_65_6 r impact_parameter relative_energy sigma epsilon)
    | MORSE D alpha r0 => Ok (doca_morse r impact_parameter relative_energy D alpha r0)
    | KRC_MORSE D alpha r0 k x0 => Ok (doca_krc_morse r impact_parameter relative_energy a Za Zb D alpha r0 k x0)
    | FOUR_EIGHT alpha beta => Ok (doca_four_eight r impact_parameter relative_energy alpha beta)
    | WW => doca_tungsten_tungsten_cubic_spline r impact_parameter relative_energy
    | COULOMB _ _ => Panic ExplicitPanic
    end.

  (** interactions.rs 153-181 *)
  Definition scaling_function (r a : F) (ip : InteractionPotential F) : Res F :=
    match ip with
    | MOLIERE | KR_C | LENZ_JENSEN | ZBL | TRIDYN => Ok (nZ 1 /! (nZ 1 +! npowi (r /! a) 2))
    | LENNARD_JONES_12_6 sigma _ => Ok (nZ 1 /! (nZ 1 +! npowf (r /! sigma) (nZ 11)))
    | LENNARD_JONES_65_6 sigma _ => Ok (nZ 1 /! (nZ 1 +! npowf (r /! sigma) (nZ 6)))
    | FOUR_EIGHT _ beta => Ok (nZ 1 /! (nZ 1 +! npowi r 8 /! beta))
    | MORSE _ alpha _ => Ok (nZ 1 /! (nZ 1 +! npowi (r *! alpha) 2))
    | WW => Ok (nZ 1)
    | KRC_MORSE _ alpha _ _ _ => Ok (nZ 1 /! (nZ 1 +! npowi (r *! alpha) 2))
    | COULOMB _ _ => Panic ExplicitPanic
    end.

  (** interactions.rs 184-204 *)
  Definition diff_distance_of_closest_approach_function
      (r a Za Zb relative_energy impact_parameter : F) (ip : InteractionPotential F) : Res F :=
    match ip with
    | MOLIERE | KR_C | LENZ_JENSEN | ZBL | TRIDYN =>
        let a := screening_length Za Zb ip in
        let reduced_energy := cLINDHARD_REDUCED_ENERGY_PREFACTOR *! a /! Za /! Zb *! relative_energy in
        let beta := impact_parameter /! a in
        diff_doca_function (r /! a) beta reduced_energy ip
    | LENNARD_JONES_12_6 sigma epsilon => Ok (diff_doca_lennard_jones r impact_parameter relative_energy sigma epsilon)
    | LENNARD_JONES_65_6 sigma epsilon => Ok (diff_doca_lennard_jones_65_6 r impact_parameter relative_energy sigma epsilon)
    | MORSE D alpha r0 => Ok (diff_doca_morse r impact_parameter relative_energy D alpha r0)
    | _ => Panic ExplicitPanic
    end.

  (** interactions.rs 207-227 *)
  Definition diff_distance_of_closest_approach_function_singularity_free
      (r a Za Zb relative_energy impact_parameter : F) (ip : InteractionPotential F) : Res F :=
    match ip with
    | MOLIERE | KR_C | LENZ_JENSEN | ZBL | TRIDYN =>
        let a := screening_length Za Zb ip in
        let reduced_energy := cLINDHARD_REDUCED_ENERGY_PREFACTOR *! a /! Za /! Zb *! relative_energy in
        let beta := impact_parameter /! a in
        diff_doca_function_transformed (r /! a) beta reduced_energy ip
    | LENNARD_JONES_12_6 sigma epsilon => Ok (diff_doca_lennard_jones r impact_parameter relative_energy sigma epsilon)
    | LENNARD_JONES_65_6 sigma epsilon => Ok (diff_doca_lennard_jones_65_6 r impact_parameter relative_energy sigma epsilon)
    | MORSE D alpha r0 => Ok (diff_doca_morse r impact_parameter relative_energy D alpha r0)
    | _ => Panic ExplicitPanic
    end.

  (** interactions.rs 280-307 (highest power first) *)
  Definition polynomial_coefficients (relative_energy impact_parameter : F) (ip : InteractionPotential F) : Res (list F) :=
    match ip with
    | LENNARD_JONES_12_6 sigma epsilon =>
        let epsilon_ev := epsilon /! cEV in
        let relative_energy_ev := relative_energy /! cEV in
        Ok [ nZ 1; -! npowi impact_parameter 2; nZ 0;
             nZ 4 *! epsilon_ev *! npowf sigma (nZ 6) /! relative_energy_ev; nZ 0; nZ 0;
             nZ (-4) *! epsilon_ev *! npowf sigma (nZ 12) /! relative_energy_ev ]
    | LENNARD_JONES_65_6 sigma epsilon =>
        let epsilon_ev := epsilon /! cEV in
        let relative_energy_ev := relative_energy /! cEV in
        Ok [ nZ 1; nZ 0; nZ 0; nZ 0; -! npowi impact_parameter 2; nZ 0; nZ 0; nZ 0; nZ 0; nZ 0; nZ 0; nZ 0;
             nZ 4 *! epsilon_ev *! npowf sigma (nZ 6) /! relative_energy_ev;
             nZ (-4) *! epsilon_ev *! npowf sigma (lit 65 (-1)) /! relative_energy_ev ]
    | FOUR_EIGHT alpha beta =>
        let alpha_angstroms4_joule := alpha /! npowi cANGSTROM 4 in
        let beta_angstroms8_joule := beta /! npowi cANGSTROM 8 in
        let impact_parameteter_angstroms := impact_parameter /! cANGSTROM in
        Ok [ nZ 1; -! npowi impact_parameteter_angstroms 2; alpha_angstroms4_joule /! relative_energy; nZ 0;
             (-! beta_angstroms8_joule) /! relative_energy ]
    | _ => Panic ExplicitPanic
    end.

  (** interactions.rs 312-325 *)
  Definition inverse_transform (x : F) (ip : InteractionPotential F) : Res F :=
    match ip with
    | LENNARD_JONES_12_6 _ _ => Ok (nsqrt x)
    | LENNARD_JONES_65_6 _ _ => Ok (x *! x)
    | FOUR_EIGHT _ _ => Ok (nsqrt x *! cANGSTROM)
    | _ => Panic ExplicitPanic
    end.

  (** interactions.rs 508-522 *)
  Definition first_screening_radius (ip : InteractionPotential F) : F :=
    match ip with
    | MOLIERE => lit 3 (-1)
    | KR_C => lit 278544 (-6)
    | ZBL => lit 20162 (-5)
    | LENZ_JENSEN => lit 206 (-3)
    | TRIDYN => lit 278544 (-6)
    | LENNARD_JONES_12_6 _ _ | LENNARD_JONES_65_6 _ _ => nZ 1
    | MORSE _ _ _ | KRC_MORSE _ _ _ _ _ => nZ 1
    | WW => nZ 1
    | COULOMB _ _ => lit 3 (-1)
    | FOUR_EIGHT _ _ => nZ 1
    end.
End Interactions.
