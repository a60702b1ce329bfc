(** * ModelBca.v - bca.rs *)
From Coq Require Import ZArith List Bool.
From Verif Require Import Num ModelTypes ModelConsts ModelParticle ModelInteractions ModelGeometry ModelMaterial.
Import ListNotations.
Open Scope Z_scope.
Open Scope num_scope.

Section Bca.
  Context {F : Type} {NF : Num F}.

  (** ** Root finders *)

  (** The external crate rcpr (feature "cpr_rootfinder"): real_polynomial_roots
      and find_roots_with_{secant,newton}_polishing.  They are arbitrary
      functions; [None] is Err; they may propagate a panic of the closures they
      are given.  The arguments are those of bca.rs 578, 643-656. *)
  Record CprQueries : Type := mkCprQueries {
    cq_real_polynomial_roots : list F -> F -> option (list F);
    cq_find_roots : (F -> Res F) -> (F -> Res F) -> option (F -> Res F) -> F -> F ->
                    nat -> F -> nat -> F -> F -> F -> F -> Res (option (list F)) }.
  (** The build: [None] is the default build, [Some q] the build with the
      feature cpr_rootfinder (bca.rs 406-432, 567, 604). *)
  Definition Build : Type := option CprQueries.

  (** bca.rs 592, 658: [roots.iter().cloned().fold(f64::NAN, f64::max)]; [None] is NaN *)
  Definition max_root (roots : list F) : option F :=
    fold_left (fun acc r =>
      if nis_nan r then acc
      else match acc with
           | None => Some r
           | Some m => Some (if m <! r then r else m)
           end) roots None.

  (** bca.rs 570-602. [Ok None] is Err. *)
  Definition polynomial_rootfinder (q : CprQueries) (Za Zb Ma Mb E0 impact_parameter : F)
      (ip : InteractionPotential F) (polynom_complex_threshold : F) : Res (option F) :=
    let a := screening_length Za Zb ip in
    let relative_energy := E0 *! Mb /! (Ma +! Mb) in
    let! coefficients := polynomial_coefficients relative_energy impact_parameter ip in
    match cq_real_polynomial_roots q coefficients polynom_complex_threshold with
    | None => Panic UnwrapErr
    | Some roots =>
        match max_root roots with
        | None => Ok None
        | Some m =>
            let! r := inverse_transform m ip in
            if nis_nan r then Ok None else Ok (Some (r /! a))
        end
    end.

  (** bca.rs 624-665. [Ok None] is Err (the two function values formatted into
      the error message are not evaluated). *)
  Definition cpr_rootfinder (q : CprQueries) (Za Zb Ma Mb E0 impact_parameter : F)
      (ip : InteractionPotential F) (n0 nmax : nat)
      (epsilon complex_threshold truncation_threshold far_from_zero interval_limit : F)
      (derivative_free : bool) : Res (option F) :=
    let a := screening_length Za Zb ip in
    let relative_energy := E0 *! Mb /! (Ma +! Mb) in
    let f := fun r => distance_of_closest_approach_function r a Za Zb relative_energy impact_parameter ip in
    let g := fun r =>
      let! v := distance_of_closest_approach_function_singularity_free r a Za Zb relative_energy impact_parameter ip in
      let! s := scaling_function r impact_parameter ip in
      Ok (v *! s) in
    let df := fun r => diff_distance_of_closest_approach_function r a Za Zb relative_energy impact_parameter ip in
    let upper_bound := impact_parameter +! crossing_point_doca ip in
    let! roots := cq_find_roots q g f (if derivative_free then None else Some df) (nlit 1 (-15)) upper_bound
                    n0 epsilon nmax complex_threshold truncation_threshold interval_limit far_from_zero in
    match roots with
    | None => Panic UnwrapErr
    | Some roots =>
        match max_root roots with
        | None => Ok None
        | Some m => let m := m /! a in if nis_nan m then Ok None else Ok (Some m)
        end
    end.

  (** bca.rs 689-700: the Newton-Raphson loop, [k] iterations left.
      [Ok (Some x)] is Ok(x), [Ok None] is Err. *)
  Fixpoint newton_loop (f df : F -> Res F) (a tolerance : F) (k : nat) (x0 : F) : Res (option F) :=
    match k with
    | O => Ok None
    | S k' =>
        let! fx := f (x0 *! a) in
        let! dfx := df (x0 *! a) in
        let xn := x0 -! fx /! dfx in
        let err := (xn -! x0) *! (xn -! x0) in
        if err <! tolerance then Ok (Some xn) else newton_loop f df a tolerance k' xn
    end.
  (** bca.rs 680-687: the initial guess *)
  Definition newton_guess (beta reduced_energy : F) : F :=
    if reduced_energy >! nZ 5 then
      let inv_er_2 := nlit 5 (-1) /! reduced_energy in
      inv_er_2 +! nsqrt (inv_er_2 *! inv_er_2 +! beta *! beta)
    else beta.
  (** bca.rs 668-701 *)
  Definition newton_rootfinder (Za Zb Ma Mb E0 impact_parameter : F) (ip : InteractionPotential F)
      (max_iterations : nat) (tolerance : F) : Res (option F) :=
    let a := screening_length Za Zb ip in
    let reduced_energy := cLINDHARD_REDUCED_ENERGY_PREFACTOR *! a *! Mb /! (Ma +! Mb) /! Za /! Zb *! E0 in
    let relative_energy := E0 *! Mb /! (Ma +! Mb) in
    let beta := impact_parameter /! a in
    let f := fun r => distance_of_closest_approach_function r a Za Zb relative_energy impact_parameter ip in
    let df := fun r => diff_distance_of_closest_approach_function r a Za Zb relative_energy impact_parameter ip in
    newton_loop f df a tolerance max_iterations (newton_guess beta reduced_energy).

  (** [.unwrap()] on a Result (bca.rs 110-112, 408-430) *)
  Definition unwrap_ok {A} (r : Res (option A)) : Res A :=
    let! o := r in
    match o with
    | Some a => Ok a
    | None => Panic UnwrapErr
    end.

  (** [table[i][j]] (bca.rs 395, 403, 447, 485, 486) *)
  Definition idx2 {A} (t : list (list A)) (i j : nat) : Res A :=
    let! row := idx t i in idx row j.

  (** bca.rs 398 *)
  Definition coulomb_doca (Z1 Z2 relative_energy p : F) : F :=
    Z1 *! Z2 *! cQ *! cQ /! relative_energy /! npi /! cEPS0 /! nZ 8
    +! nsqrt (nZ 64 *! npowi (relative_energy *! npi *! p *! cEPS0) 2 +! npowi (Z1 *! Z2 *! cQ *! cQ) 2)
       /! relative_energy /! npi /! cEPS0 /! nZ 8.

  (** bca.rs 385-433; the choice of root finder is made at 402-404 *)
  Definition distance_of_closest_approach (build : Build) (p1 p2 : Particle F)
      (bcg : BinaryCollisionGeometry F) (options : Options F) : Res F :=
    let Za := p_Z p1 in
    let Zb := p_Z p2 in
    let Ma := p_m p1 in
    let Mb := p_m p2 in
    let E0 := p_E p1 in
    let relative_energy := E0 *! Mb /! (Ma +! Mb) in
    let p := bcg_impact_parameter bcg in
    let! ip := idx2 (o_interaction_potential options) (p_interaction_index p1) (p_interaction_index p2) in
    match ip with
    | COULOMB Z1 Z2 => Ok (coulomb_doca Z1 Z2 relative_energy p /! screening_length Z1 Z2 ip)
    | _ =>
        let! root_finder :=
          if below_energy_threshold_single_root relative_energy ip
          then idx2 (o_root_finder options) (p_interaction_index p1) (p_interaction_index p2)
          else Ok (NEWTON 100 (nlit 1 (-6))) in
        match root_finder with
        | NEWTON max_iterations tolerance =>
            unwrap_ok (newton_rootfinder Za Zb Ma Mb E0 p ip max_iterations tolerance)
        | DEFAULTNEWTON => unwrap_ok (newton_rootfinder Za Zb Ma Mb E0 p ip 100 (nlit 1 (-3)))
        | POLYNOMIAL complex_threshold =>
            match build with
            | None => Panic ExplicitPanic
            | Some q => unwrap_ok (polynomial_rootfinder q Za Zb Ma Mb E0 p ip complex_threshold)
            end
        | CPR n0 nmax epsilon complex_threshold truncation_threshold far_from_zero interval_limit derivative_free =>
            match build with
            | None => Panic ExplicitPanic
            | Some q => unwrap_ok (cpr_rootfinder q Za Zb Ma Mb E0 p ip n0 nmax epsilon complex_threshold
                                     truncation_threshold far_from_zero interval_limit derivative_free)
            end
        end
    end.

  (** ** Scattering integrals *)

  (** bca.rs 516-519 *)
  Definition scattering_integral_mw (x beta reduced_energy : F) (ip : InteractionPotential F) : Res F :=
    let! ph := phi x ip in
    Ok (npowf (nZ 1 -! ph /! x /! reduced_energy -! beta *! beta /! x /! x) (nlit (-5) (-1))).
  (** bca.rs 522-531; Err is unwrapped at the only call site (562-564) *)
  Definition scattering_function_gl (u impact_parameter r0 relative_energy : F) (V : F -> Res F) : Res F :=
    let! v := V (r0 /! (nZ 1 -! u *! u)) in
    let result := nZ 4 *! impact_parameter *! u
      /! (r0 *! nsqrt (nZ 1 -! v /! relative_energy
                       -! impact_parameter *! impact_parameter *! npowi (nZ 1 -! u *! u) 2 /! r0 /! r0)) in
    if nis_nan result then Panic UnwrapErr else Ok result.
  (** bca.rs 534-543; Err is unwrapped at the only call site (551-553) *)
  Definition scattering_function_gm (u impact_parameter r0 relative_energy : F) (V : F -> Res F) : Res F :=
    let! v := V (r0 /! u) in
    let result := impact_parameter /! r0
      /! nsqrt (nZ 1 -! v /! relative_energy -! npowi (impact_parameter *! u /! r0) 2) in
    if nis_nan result then Panic UnwrapErr else Ok result.
  (** bca.rs 547-548: node and weight [i] of [n_points], i = 1 .. n_points *)
  Definition gm_angle (n_points i : nat) : F :=
    (nZ 2 *! nnat i -! nZ 1) /! nZ 4 /! nnat n_points *! npi.
  Definition gm_node (n_points i : nat) : F := ncos (gm_angle n_points i).
  Definition gm_weight (n_points i : nat) : F := npi /! nnat n_points *! nsin (gm_angle n_points i).
  (** bca.rs 546-554 *)
  Definition scattering_integral_gauss_mehler (impact_parameter relative_energy r0 : F) (V : F -> Res F)
      (n_points : nat) : Res F :=
    let x := map (gm_node n_points) (seq 1 n_points) in
    let w := map (gm_weight n_points) (seq 1 n_points) in
    let! terms := mapM (fun xw => let! s := scattering_function_gm (fst xw) impact_parameter r0 relative_energy V in
                                  Ok (snd xw *! s)) (zip x w) in
    Ok (npi -! nsum terms).
  (** bca.rs 557-565 *)
  Definition gl_nodes : list F :=
    map (fun x => x /! nZ 2 +! nZ 1 /! nZ 2)
        [nZ 0; nlit (-538469) (-6); nlit 538469 (-6); nlit (-90618) (-5); nlit 90618 (-5)].
  Definition gl_weights : list F :=
    map (fun w => w /! nZ 2)
        [nlit 568889 (-6); nlit 478629 (-6); nlit 478629 (-6); nlit 236927 (-6); nlit 236927 (-6)].
  Definition scattering_integral_gauss_legendre (impact_parameter relative_energy r0 : F) (V : F -> Res F) : Res F :=
    let! terms := mapM (fun xw => let! s := scattering_function_gl (fst xw) impact_parameter r0 relative_energy V in
                                  Ok (snd xw *! s)) (zip gl_nodes gl_weights) in
    Ok (npi -! nsum terms).
  (** bca.rs 704-710 *)
  Definition gauss_mehler (Za Zb Ma Mb E0 impact_parameter x0 : F) (ip : InteractionPotential F) (n_points : nat) : Res F :=
    let a := screening_length Za Zb ip in
    let r0 := x0 *! a in
    let relative_energy := E0 *! Mb /! (Ma +! Mb) in
    scattering_integral_gauss_mehler impact_parameter relative_energy r0
      (fun r => interaction_potential r a Za Zb ip) n_points.
  (** bca.rs 713-719 *)
  Definition gauss_legendre (Za Zb Ma Mb E0 impact_parameter x0 : F) (ip : InteractionPotential F) : Res F :=
    let a := screening_length Za Zb ip in
    let r0 := x0 *! a in
    let relative_energy := E0 *! Mb /! (Ma +! Mb) in
    scattering_integral_gauss_legendre impact_parameter relative_energy r0
      (fun r => interaction_potential r a Za Zb ip).
  (** bca.rs 725-731 *)
  Definition magic_constants (ip : InteractionPotential F) : Res (F * F * F * F * F) :=
    match ip with
    | MOLIERE => Ok (nlit 6743 (-4), nlit 9611 (-6), nlit 5175 (-6), nlit 6314 (-3), nlit 100 (-1))
    | KR_C => Ok (nlit 7887 (-4), nlit 1166 (-5), nlit 6913 (-6), nlit 1716 (-2), nlit 1079 (-2))
    | ZBL => Ok (nlit 99229 (-5), nlit 11615 (-6), nlit 71222 (-7), nlit 93066 (-4), nlit 14813 (-3))
    | TRIDYN => Ok (nlit 10144 (-4), nlit 235809 (-6), nlit 126 (-3), nZ 69350, nZ 83550)
    | _ => Panic ExplicitPanic
    end.
  (** bca.rs 722-746 *)
  Definition magic (Za Zb Ma Mb E0 impact_parameter x0 : F) (ip : InteractionPotential F) : Res F :=
    let! (c0, c1, c2, c3, c4) := magic_constants ip in
    let a := screening_length Za Zb ip in
    let beta := impact_parameter /! a in
    let V0 := Za *! Zb *! cQ *! cQ /! nZ 4 /! npi /! cEPS0 /! a in
    let relative_energy := E0 *! Mb /! (Ma +! Mb) in
    let reduced_energy := relative_energy /! V0 in
    let r0 := a *! x0 in
    let! ph := phi x0 ip in
    let! dph := dphi x0 ip in
    let V := V0 *! a /! r0 *! ph in
    let dV := (-! V) /! r0 +! V0 /! r0 *! dph in
    let rho := nZ (-2) *! (relative_energy -! V) /! dV in
    let D := nZ 2 *! (nZ 1 +! c0 /! nsqrt reduced_energy) *! reduced_energy
             *! npowf beta ((c1 +! nsqrt reduced_energy) /! (c2 +! nsqrt reduced_energy)) in
    let G := (c4 +! reduced_energy) /! (c3 +! reduced_energy) *! (nsqrt (nZ 1 +! D *! D) -! D) in
    let delta := D *! G /! (nZ 1 +! G) *! (x0 -! beta) in
    Ok (nZ 2 *! nacos ((beta +! rho /! a +! delta) /! (x0 +! rho /! a))).
  (** bca.rs 749-759 *)
  Definition mendenhall_weller (Za Zb Ma Mb E0 impact_parameter x0 : F) (ip : InteractionPotential F) : Res F :=
    let a := screening_length Za Zb ip in
    let reduced_energy := cLINDHARD_REDUCED_ENERGY_PREFACTOR *! a *! Mb /! (Ma +! Mb) /! Za /! Zb *! E0 in
    let beta := impact_parameter /! a in
    let! dph := dphi x0 ip in
    let lambda0 := npowf (nlit 5 (-1) +! beta *! beta /! x0 /! x0 /! nZ 2 -! dph /! nZ 2 /! reduced_energy)
                         (nZ (-1) /! nZ 2) in
    let! s1 := scattering_integral_mw (x0 /! nlit 9072 (-4)) beta reduced_energy ip in
    let! s2 := scattering_integral_mw (x0 /! nlit 4206 (-4)) beta reduced_energy ip in
    let alpha := nZ 1 /! nZ 12 *! (nZ 1 +! lambda0 +! nZ 5 *! (nlit 4206 (-4) *! s1 +! nlit 9072 (-4) *! s2)) in
    Ok (npi *! (nZ 1 -! beta *! alpha /! x0)).
  (** bca.rs 762-769 *)
  Definition oen_robinson_loss (Za Zb Se x0 : F) (ip : InteractionPotential F) : F :=
    let a := screening_length Za Zb ip in
    let d1 := first_screening_radius ip in
    d1 *! d1 /! nZ 2 /! npi *! Se *! nexp ((-! d1) *! x0) /! a /! a.

  (** ** The binary collision *)

  (** bca.rs 491-496 *)
  Definition scattering_angle (Za Zb Ma Mb E0 impact_parameter x0 : F) (ip : InteractionPotential F)
      (si : ScatteringIntegral) : Res F :=
    match si with
    | MENDENHALL_WELLER => mendenhall_weller Za Zb Ma Mb E0 impact_parameter x0 ip
    | GAUSS_MEHLER n_points => gauss_mehler Za Zb Ma Mb E0 impact_parameter x0 ip n_points
    | GAUSS_LEGENDRE => gauss_legendre Za Zb Ma Mb E0 impact_parameter x0 ip
    | MAGIC => magic Za Zb Ma Mb E0 impact_parameter x0 ip
    end.
  (** bca.rs 502-511: everything computed from the centre-of-mass angle *)
  Definition collision_kinematics (Ma Mb E0 a x0 theta : F) (coulombic : bool) : BinaryCollisionResult F :=
    let asymptotic_deflection := if coulombic then nZ 0 else x0 *! a *! nsin (theta /! nZ 2) in
    let psi := nabs (natan2 (nsin theta) (Ma /! Mb +! ncos theta)) in
    let psi_recoil := nabs (natan2 (nsin theta) (nZ 1 -! ncos theta)) in
    let recoil_energy := nZ 4 *! (Ma *! Mb) /! npowi (Ma +! Mb) 2 *! E0 *! npowi (nsin (theta /! nZ 2)) 2 in
    mkBCR theta psi psi_recoil recoil_energy asymptotic_deflection x0.
  Definition is_coulomb (ip : InteractionPotential F) : bool :=
    match ip with COULOMB _ _ => true | _ => false end.
  (** bca.rs 476-512. [Ok None] is Err. *)
  Definition calculate_binary_collision (build : Build) (p1 p2 : Particle F)
      (bcg : BinaryCollisionGeometry F) (options : Options F) : Res (option (BinaryCollisionResult F)) :=
    let Za := p_Z p1 in
    let Zb := p_Z p2 in
    let Ma := p_m p1 in
    let Mb := p_m p2 in
    let E0 := p_E p1 in
    let! ip := idx2 (o_interaction_potential options) (p_interaction_index p1) (p_interaction_index p2) in
    let! si := idx2 (o_scattering_integral options) (p_interaction_index p1) (p_interaction_index p2) in
    let a := screening_length Za Zb ip in
    let! x0 := distance_of_closest_approach build p1 p2 bcg options in
    let! theta := scattering_angle Za Zb Ma Mb E0 (bcg_impact_parameter bcg) x0 ip si in
    if nis_nan theta then Ok None
    else Ok (Some (collision_kinematics Ma Mb E0 a x0 theta (is_coulomb ip))).

  (** ** Choosing the collision geometry *)

  (** [-rand::random::<f64>().ln()] (bca.rs 274, 278, 306, 333) *)
  Definition gaseous_factor : M F F := do! r := mrandom in mret (-! nln r).
  (** bca.rs 267-271, 299-303, 326-330: atomically rough surface *)
  Definition first_step_path (first_step : bool) (path mfp : F) : M F F :=
    if first_step then do! r := mrandom in mret (mfp *! r) else mret path.

  (** bca.rs 204-343.  Returns the particle with [first_step] updated, and the
      geometries. *)
  Definition determine_mfp_phi_impact_parameter (mat : Material F) (options : Options F) (p : Particle F)
      : M F (Particle F * list (BinaryCollisionGeometry F)) :=
    let x := vx (p_pos p) in
    let y := vy (p_pos p) in
    let z := vz (p_pos p) in
    do! mfp := mlift (mat_mfp mat x y z) in
    do! phi_randoms := mrandoms (S (o_weak_collision_order options)) in
    let phis_azimuthal := map (fun r => nZ 2 *! npi *! r) phi_randoms in
    do! phi0 := mlift (idx phis_azimuthal 0) in
    if o_high_energy_free_flight_paths options then
      let Ma := p_m p in
      do! Mb := mlift (average_mass mat x y z) in
      let Za := p_Z p in
      do! Zb := mlift (average_Z mat x y z) in
      do! ck := mlift (electronic_stopping_correction_factor mat x y z) in
      let E := p_E p in
      let Ec := p_Ec p in
      let a := screening_length Za Zb MOLIERE in
      let reduced_energy := cLINDHARD_REDUCED_ENERGY_PREFACTOR *! a *! Mb /! (Ma +! Mb) /! Za /! Zb *! E in
      let E_min := Ec *! (Ma +! Mb) *! (Ma +! Mb) /! nZ 4 /! Ma /! Mb in
      let reduced_energy_min := cLINDHARD_REDUCED_ENERGY_PREFACTOR *! a *! Mb /! (Ma +! Mb) /! Za /! Zb *! E_min in
      let ep := nsqrt (reduced_energy *! reduced_energy_min) in
      let pmax := a /! (ep +! nsqrt ep +! nlit 125 (-3) *! npowf ep (nlit 1 (-1))) in
      do! n := mlift (total_number_density mat x y z) in
      let ffp := nZ 1 /! (n *! pmax *! pmax *! npi) in
      do! stopping_powers := mlift (electronic_stopping_cross_sections mat p INTERPOLATED) in
      do! densities := mlift (number_densities mat x y z) in
      let delta_energy_electronic := weighted_sum stopping_powers densities *! ffp *! ck in
      let too_much := delta_energy_electronic >! nlit 5 (-2) *! E in
      let ffp := if too_much then ffp *! (nlit 5 (-2) *! E /! delta_energy_electronic) else ffp in
      let pmax := if too_much then nsqrt (nZ 1 /! (n *! npi *! ffp)) else pmax in
      if ffp <! mfp then
        let ffp := mfp in
        let pmax := mfp /! cSQRTPI in
        do! random_number := mrandom in
        let impact_parameter := pmax *! nsqrt random_number in
        do! ffp := first_step_path (p_first_step p) ffp mfp in
        let p := if p_first_step p then set_p_first_step false p else p in
        do! factor :=
          match o_mean_free_path_model options with
          | GASEOUS => gaseous_factor
          | LIQUID => mret (nZ 1)
          | THRESHOLD density => if n <! density then gaseous_factor else mret (nZ 1)
          end in
        let ffp := ffp *! factor in
        mret (p, [mkBCG phi0 impact_parameter ffp])
      else
        do! random_number := mrandom in
        let impact_parameter := pmax *! nsqrt (-! nln random_number) in
        do! ffp := first_step_path (p_first_step p) ffp mfp in
        let p := if p_first_step p then set_p_first_step false p else p in
        do! ffp :=
          match o_mean_free_path_model options with
          | GASEOUS => do! g := gaseous_factor in mret (ffp *! g)
          | _ => mret ffp
          end in
        mret (p, [mkBCG phi0 impact_parameter ffp])
    else
      let pmax := mfp /! cSQRTPI in
      do! ip_randoms := mrandoms (S (o_weak_collision_order options)) in
      let impact_parameters :=
        map (fun kr => pmax *! nsqrt (snd kr +! nnat (fst kr)))
            (zip (seq 0 (S (o_weak_collision_order options))) ip_randoms) in
      do! mfp := first_step_path (p_first_step p) mfp mfp in
      let p := if p_first_step p then set_p_first_step false p else p in
      do! mfp :=
        match o_mean_free_path_model options with
        | GASEOUS => do! g := gaseous_factor in mret (mfp *! g)
        | _ => mret mfp
        end in
      mret (p, map (fun pp => mkBCG (fst pp) (snd pp) mfp) (zip phis_azimuthal impact_parameters)).

  (** bca.rs 355-366: the recoil position *)
  Definition recoil_position (pos dir : Vector F) (bcg : BinaryCollisionGeometry F) : Vector F :=
    let impact_parameter := bcg_impact_parameter bcg in
    let mfp := bcg_mfp bcg in
    let phi_azimuthal := bcg_phi_azimuthal bcg in
    let sinphi := nsin phi_azimuthal in
    let cosx := vx dir in
    let cosy := vy dir in
    let cosz := vz dir in
    let sinx := nsqrt (nZ 1 -! cosx *! cosx) in
    let cosphi := ncos phi_azimuthal in
    mkV (vx pos +! mfp *! cosx -! impact_parameter *! cosphi *! sinx)
        (vy pos +! mfp *! cosy -! impact_parameter *! (sinphi *! cosz -! cosphi *! cosy *! cosx) /! sinx)
        (vz pos +! mfp *! cosz +! impact_parameter *! (sinphi *! cosy -! cosphi *! cosx *! cosz) /! sinx).
  (** bca.rs 346-383 *)
  Definition choose_collision_partner (mat : Material F) (options : Options F) (p1 : Particle F)
      (bcg : BinaryCollisionGeometry F) : M F (nat * Particle F) :=
    let r := recoil_position (p_pos p1) (p_dir p1) bcg in
    do! s := choose mat (vx r) (vy r) (vz r) in
    let new_particle := particle_new (s_m s) (s_Z s) (nZ 0) (s_Ec s) (s_Es s) (s_Ed s)
                          (vx r) (vy r) (vz r) (vx (p_dir p1)) (vy (p_dir p1)) (vz (p_dir p1))
                          false (o_track_recoil_trajectories options) (s_interaction_index s) in
    let new_particle := set_p_weight (p_weight p1) new_particle in
    let new_particle := set_p_tag (p_tag p1) new_particle in
    let new_particle := set_p_tracked_vector (p_tracked_vector p1) new_particle in
    mret (s_index s, new_particle).

  (** ** Energy loss *)

  (** bca.rs 447-462 *)
  Definition electronic_loss (mat : Material F) (options : Options F) (p1 : Particle F)
      (distance_traveled x0 strong_collision_Z : F) (strong_collision_index : nat) : Res F :=
    let x := vx (p_pos p1) in
    let y := vy (p_pos p1) in
    let z := vz (p_pos p1) in
    let! j := idx (mat_interaction_index mat) strong_collision_index in
    let! ip := idx2 (o_interaction_potential options) (p_interaction_index p1) j in
    let! se := electronic_stopping_cross_sections mat p1 (o_electronic_stopping_mode options) in
    let! n := number_densities mat x y z in
    match o_electronic_stopping_mode options with
    | INTERPOLATED | LOW_ENERGY_NONLOCAL => Ok (weighted_sum se n *! distance_traveled)
    | LOW_ENERGY_LOCAL =>
        let! s := idx se strong_collision_index in
        Ok (oen_robinson_loss (p_Z p1) strong_collision_Z s x0 ip)
    | LOW_ENERGY_EQUIPARTITION =>
        let! s := idx se strong_collision_index in
        let delta_energy_local := oen_robinson_loss (p_Z p1) strong_collision_Z s x0 ip in
        let delta_energy_nonlocal := weighted_sum se n *! distance_traveled in
        Ok (nlit 5 (-1) *! delta_energy_local +! nlit 5 (-1) *! delta_energy_nonlocal)
    end.
  (** bca.rs 436-474; returns the particle and the reported loss *)
  Definition subtract_electronic_stopping_energy (mat : Material F) (options : Options F) (p1 : Particle F)
      (distance_traveled x0 strong_collision_Z : F) (strong_collision_index : nat) : Res (Particle F * F) :=
    let! _ := rassert (negb (nis_nan (p_E p1))) in
    if mat_inside mat (vx (p_pos p1)) (vy (p_pos p1)) (vz (p_pos p1)) then
      let! delta_energy_electronic :=
        electronic_loss mat options p1 distance_traveled x0 strong_collision_Z strong_collision_index in
      let E := p_E p1 +! (-! delta_energy_electronic) in
      let! _ := rassert (negb (nis_nan E)) in
      let p1 := set_p_E E p1 in
      let p1 := if E <! nZ 0 then set_p_E (nZ 0) p1 else p1 in
      Ok (p1, delta_energy_electronic)
    else Ok (p1, nZ 0).

  (** ** The trajectory loop *)

  (** The variables of bca.rs 92-96 together with particle_1 and the particle
      stack; the stack's head is the top (last element) of the Vec. *)
  Record CollisionState : Type := mkCS {
    cs_particle_1 : Particle F;
    cs_particles : list (Particle F);
    cs_total_energy_lost_to_recoils : F;
    cs_total_asymptotic_deflection : F;
    cs_normalized_distance_of_closest_approach : F;
    cs_strong_collision_Z : F;
    cs_strong_collision_index : nat }.

  (** bca.rs 145-174: is the recoil kept?  The closest-point query runs only
      when deep recoils are suppressed. *)
  Definition keep_recoil (mat : Material F) (options : Options F) (p1 p2 : Particle F) : Res bool :=
    if o_track_recoils options && o_suppress_deep_recoils options then
      let x := vx (p_pos p2) in
      let y := vy (p_pos p2) in
      let z := vz (p_pos p2) in
      let! n := total_number_density mat x y z in
      let a := screening_length (p_Z p1) (p_Z p2) MOLIERE in
      let reduced_energy := cLINDHARD_REDUCED_ENERGY_PREFACTOR *! a *! p_m p2 /! (p_m p1 +! p_m p2)
                            /! p_Z p1 /! p_Z p2 *! p_E p1 in
      let estimated_range_of_recoils := npowi (npowf reduced_energy (nlit 3 (-1)) +! nlit 1 (-1)) 3 /! n /! a /! a in
      let! (x2, y2, z2) := mat_closest_point mat x y z in
      let dx := x2 -! x in
      let dy := y2 -! y in
      let dz := z2 -! z in
      let distance_to_surface := nsqrt (dx *! dx +! dy *! dy +! dz *! dz) in
      Ok ((distance_to_surface <! estimated_range_of_recoils) && (p_E p2 >! p_Ec p2))
    else Ok (o_track_recoils options && (p_E p2 >! p_Ec p2)).

  (** bca.rs 98-176: one iteration of the collision loop (index [k]) *)
  Definition collision_step (build : Build) (mat : Material F) (options : Options F)
      (k : nat) (bcg : BinaryCollisionGeometry F) (cs : CollisionState) : M F CollisionState :=
    let p1 := cs_particle_1 cs in
    do! (species_index, p2) := choose_collision_partner mat options p1 bcg in
    do! barrier := mlift (mat_inside_energy_barrier mat (vx (p_pos p1)) (vy (p_pos p1)) (vz (p_pos p1))) in
    if mat_inside mat (vx (p_pos p2)) (vy (p_pos p2)) (vz (p_pos p2)) && barrier then
      do! r := mlift (unwrap_ok (calculate_binary_collision build p1 p2 bcg options)) in
      do! bulk := mlift (average_bulk_binding_energy mat (vx (p_pos p2)) (vy (p_pos p2)) (vz (p_pos p2))) in
      let p2 := set_p_E (bcr_recoil_energy r -! bulk) p2 in
      let p2 := set_p_energy_origin (p_E p2) p2 in
      let p1 := set_p_E (p_E p1 +! (-! bcr_recoil_energy r)) p1 in
      let p1 := rotate (bcr_psi r) (bcg_phi_azimuthal bcg) p1 in
      let p2 := rotate (-! bcr_psi_recoil r) (bcg_phi_azimuthal bcg) p2 in
      let p2 := set_p_dir_old (mkV (vx (p_dir p2)) (vy (p_dir p2)) (vz (p_dir p2))) p2 in
      let p1 := if (bcr_psi r >! nZ 0) && Nat.eqb k 0
                then set_p_number_collision_events (S (p_number_collision_events p1)) p1 else p1 in
      do! keep := mlift (keep_recoil mat options p1 p2) in
      mret {| cs_particle_1 := p1;
              cs_particles := if keep then p2 :: cs_particles cs else cs_particles cs;
              cs_total_energy_lost_to_recoils := cs_total_energy_lost_to_recoils cs +! bcr_recoil_energy r;
              cs_total_asymptotic_deflection := cs_total_asymptotic_deflection cs +! bcr_asymptotic_deflection r;
              cs_normalized_distance_of_closest_approach :=
                if Nat.eqb k 0 then bcr_normalized_distance_of_closest_approach r
                else cs_normalized_distance_of_closest_approach cs;
              cs_strong_collision_Z := if Nat.eqb k 0 then p_Z p2 else cs_strong_collision_Z cs;
              cs_strong_collision_index := if Nat.eqb k 0 then species_index else cs_strong_collision_index cs |}
    else mret cs.

  (** bca.rs 99: [iter().enumerate().take(weak_collision_order + 1)], numbered from [k] *)
  Fixpoint collision_loop (build : Build) (mat : Material F) (options : Options F)
      (k : nat) (bcgs : list (BinaryCollisionGeometry F)) (cs : CollisionState) : M F CollisionState :=
    match bcgs with
    | [] => mret cs
    | bcg :: bcgs' =>
        do! cs := collision_step build mat options k bcg cs in
        collision_loop build mat options (S k) bcgs' cs
    end.

  (** bca.rs 79-198: one iteration of the BCA loop (default build, without the
      feature accelerated_ions): collisions, free flight, electronic stopping,
      loss tracking, boundary conditions. *)
  Definition bca_step (build : Build) (mat : Material F) (options : Options F)
      (p1 : Particle F) (particles : list (Particle F)) : M F (Particle F * list (Particle F)) :=
    do! (p1, bcgs) := determine_mfp_phi_impact_parameter mat options p1 in
    do! cs := collision_loop build mat options 0 (firstn (S (o_weak_collision_order options)) bcgs)
                (mkCS p1 particles (nZ 0) (nZ 0) (nZ 0) (nZ 0) 0%nat) in
    do! bcg0 := mlift (idx bcgs 0) in
    let (p1, distance_traveled) :=
      advance (bcg_mfp bcg0) (cs_total_asymptotic_deflection cs) (cs_particle_1 cs) in
    do! (p1, energy_lost_to_electronic_stopping) :=
      mlift (subtract_electronic_stopping_energy mat options p1 distance_traveled
               (cs_normalized_distance_of_closest_approach cs) (cs_strong_collision_Z cs)
               (cs_strong_collision_index cs)) in
    let p1 := update_energy_loss_tracker options (cs_total_energy_lost_to_recoils cs)
                energy_lost_to_electronic_stopping p1 in
    do! p1 := mlift (boundary_condition_planar mat p1) in
    mret (p1, cs_particles cs).

  (** bca.rs 78-198: the BCA loop.  [particle_index] is only assigned inside
      the loop body (line 197).  [fuel] bounds the number of iterations. *)
  Fixpoint bca_loop (build : Build) (mat : Material F) (options : Options F) (fuel : nat)
      (p1 : Particle F) (particles : list (Particle F)) (particle_index : nat)
      : M F (Particle F * list (Particle F) * nat) :=
    match fuel with
    | O => fun _ _ => OutOfFuel
    | S fuel' =>
        if negb (p_stopped p1) && negb (p_left p1) then
          do! (p1, particles) := bca_step build mat options p1 particles in
          bca_loop build mat options fuel' p1 particles (length particles)
        else mret (p1, particles, particle_index)
    end.

  (** bca.rs 72-200: the loop over the particle stack *)
  Fixpoint stack_loop (build : Build) (mat : Material F) (options : Options F) (fuel : nat)
      (particles particle_output : list (Particle F)) (particle_index : nat)
      : M F (list (Particle F)) :=
    match fuel with
    | O => fun _ _ => OutOfFuel
    | S fuel' =>
        match particle_index with
        | O => mret particle_output
        | S _ =>
            match particles with
            | [] => fun _ _ => Panic UnwrapNone
            | p1 :: particles =>
                do! (p1, particles, particle_index) :=
                  bca_loop build mat options fuel p1 particles particle_index in
                stack_loop build mat options fuel' particles (particle_output ++ [p1]) particle_index
            end
        end
    end.

  (** bca.rs 65-202 *)
  Definition single_ion_bca (build : Build) (mat : Material F) (options : Options F) (fuel : nat)
      (particle : Particle F) : M F (list (Particle F)) :=
    stack_loop build mat options fuel [particle] [] 1%nat.
End Bca.
Arguments CprQueries F : clear implicits.
Arguments Build F : clear implicits.
Arguments CollisionState F : clear implicits.
