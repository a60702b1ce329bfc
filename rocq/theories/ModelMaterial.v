(** * ModelMaterial.v - material.rs *)
From Coq Require Import ZArith List Bool.
From Verif Require Import Num ModelTypes ModelConsts ModelParticle ModelGeometry.
Import ListNotations.
Open Scope Z_scope.
Open Scope num_scope.

Section Material.
  Context {F : Type} {NF : Num F}.

  (** Unit strings; [.._other] stands for any other string with the result of
      parsing it as a float ([None]: [expect] panics).
      material.rs 57-66 and input.rs 509-518 (energy), material.rs 68-75 and
      input.rs 520-527 (mass) *)
  Inductive EnergyUnit : Type := EU_EV | EU_J | EU_KEV | EU_MEV | EU_other (parsed : option F).
  Definition energy_unit_value (u : EnergyUnit) : Res F :=
    match u with
    | EU_EV => Ok cEV
    | EU_J => Ok (nZ 1)
    | EU_KEV => Ok (cEV *! nlit 1 3)
    | EU_MEV => Ok (cEV *! nlit 1 6)
    | EU_other (Some v) => Ok v
    | EU_other None => Panic UnwrapErr
    end.
  Inductive MassUnit : Type := MU_AMU | MU_KG | MU_other (parsed : option F).
  Definition mass_unit_value (u : MassUnit) : Res F :=
    match u with
    | MU_AMU => Ok cAMU
    | MU_KG => Ok (nZ 1)
    | MU_other (Some v) => Ok v
    | MU_other None => Panic UnwrapErr
    end.

  (** material.rs 22-38 *)
  Record MaterialParameters : Type := mkMaterialParameters {
    mp_energy_unit : EnergyUnit; mp_mass_unit : MassUnit;
    mp_Eb : list F; mp_Es : list F; mp_Ec : list F; mp_Ed : list F; mp_Z : list F; mp_m : list F;
    mp_interaction_index : list nat;
    mp_surface_binding_model : SurfaceBindingModel;
    mp_bulk_binding_model : BulkBindingModel }.

  (** material.rs 56-90; the geometry is constructed by the caller *)
  Definition material_new (p : MaterialParameters) (geometry : Res (Geometry F)) : Res (Material F) :=
    let! energy_unit := energy_unit_value (mp_energy_unit p) in
    let! mass_unit := mass_unit_value (mp_mass_unit p) in
    let! g := geometry in
    Ok {| mat_m := map (fun i => i *! mass_unit) (mp_m p);
          mat_Z := mp_Z p;
          mat_Eb := map (fun i => i *! energy_unit) (mp_Eb p);
          mat_Es := map (fun i => i *! energy_unit) (mp_Es p);
          mat_Ec := map (fun i => i *! energy_unit) (mp_Ec p);
          mat_Ed := map (fun i => i *! energy_unit) (mp_Ed p);
          mat_interaction_index := mp_interaction_index p;
          mat_geometry := g;
          mat_surface_binding_model := mp_surface_binding_model p;
          mat_bulk_binding_model := mp_bulk_binding_model p |}.

  (** material.rs 91-97 *)
  Definition mat_get_concentrations (mat : Material F) (x y z : F) : Res (list F) :=
    let! total_number_density := g_get_total_density (mat_geometry mat) x y z in
    let! densities := g_get_densities (mat_geometry mat) x y z in
    Ok (map (fun i => i /! total_number_density) densities).

  (** material.rs 101-110: running sums *)
  Fixpoint cumulative_from (sum : F) (concentrations : list F) : list F :=
    match concentrations with
    | [] => []
    | c :: cs => let sum := sum +! c in sum :: cumulative_from sum cs
    end.
  Definition get_cumulative_concentrations (mat : Material F) (x y z : F) : Res (list F) :=
    let! concentrations := g_get_concentrations (mat_geometry mat) x y z in
    Ok (cumulative_from (nZ 0) concentrations).

  (** material.rs 112-115 *)
  Definition mat_inside (mat : Material F) (x y z : F) : bool := g_inside (mat_geometry mat) x y z.
  (** material.rs 118-120 *)
  Definition electronic_stopping_correction_factor (mat : Material F) (x y z : F) : Res F :=
    g_get_ck (mat_geometry mat) x y z.
  (** material.rs 128-130 *)
  Definition total_number_density (mat : Material F) (x y z : F) : Res F :=
    let! d := g_get_densities (mat_geometry mat) x y z in Ok (nsum d).
  (** material.rs 122-125 *)
  Definition mat_mfp (mat : Material F) (x y z : F) : Res F :=
    let! n := total_number_density mat x y z in Ok (npowf n (nZ (-1) /! nZ 3)).
  (** material.rs 133-135 *)
  Definition number_densities (mat : Material F) (x y z : F) : Res (list F) :=
    g_get_densities (mat_geometry mat) x y z.
  (** material.rs 137-140 *)
  Definition mat_inside_energy_barrier (mat : Material F) (x y z : F) : Res bool :=
    g_inside_energy_barrier (mat_geometry mat) x y z.
  (** material.rs 142-145 *)
  Definition mat_inside_simulation_boundary (mat : Material F) (x y z : F) : bool :=
    g_inside_simulation_boundary (mat_geometry mat) x y z.
  (** material.rs 147-150 *)
  Definition mat_closest_point (mat : Material F) (x y z : F) : Res (F * F * F) :=
    g_closest_point (mat_geometry mat) x y z.

  (** [values.iter().zip(concentrations).map(product).sum()]
      (material.rs 155, 161, 168, 199, 207, 218, 226) *)
  Definition weighted_sum (values concentrations : list F) : F :=
    nsum (map (fun vc => fst vc *! snd vc) (zip values concentrations)).

  (** material.rs 153-156 *)
  Definition average_Z (mat : Material F) (x y z : F) : Res F :=
    let! c := g_get_concentrations (mat_geometry mat) x y z in Ok (weighted_sum (mat_Z mat) c).
  (** material.rs 159-162 *)
  Definition average_mass (mat : Material F) (x y z : F) : Res F :=
    let! c := g_get_concentrations (mat_geometry mat) x y z in Ok (weighted_sum (mat_m mat) c).
  (** material.rs 165-169 *)
  Definition average_bulk_binding_energy (mat : Material F) (x y z : F) : Res F :=
    let! c := g_get_concentrations (mat_geometry mat) x y z in Ok (weighted_sum (mat_Eb mat) c).
  (** material.rs 171-184 *)
  Definition actual_bulk_binding_energy (mat : Material F) (species_index : nat) (x y z : F) : Res F :=
    match mat_bulk_binding_model mat with
    | BBM_INDIVIDUAL => idx (mat_Eb mat) species_index
    | BBM_AVERAGE =>
        let! eb := idx (mat_Eb mat) species_index in
        if eb ==! nZ 0 then Ok (nZ 0) else average_bulk_binding_energy mat x y z
    end.

  (** material.rs 191-232: the three calculations, shared by the plain models
      and by ISOTROPIC/PLANAR *)
  Definition sbe_target (mat : Material F) (p : Particle F) (concentrations : list F) : F :=
    if p_Es p ==! nZ 0 then nZ 0 else weighted_sum (mat_Es mat) concentrations.
  Definition sbe_average (mat : Material F) (p : Particle F) (concentrations : list F) : F :=
    if (p_Es p ==! nZ 0) || (nsum (mat_Es mat) ==! nZ 0) then nZ 0
    else nlit 5 (-1) *! (p_Es p +! weighted_sum (mat_Es mat) concentrations).
  Definition actual_surface_binding_energy (mat : Material F) (p : Particle F) (x y z : F) : Res F :=
    let! concentrations := g_get_concentrations (mat_geometry mat) x y z in
    Ok (match mat_surface_binding_model mat with
        | SBM_TARGET => sbe_target mat p concentrations
        | SBM_INDIVIDUAL => p_Es p
        | SBM_AVERAGE => sbe_average mat p concentrations
        | ISOTROPIC calculation | PLANAR calculation =>
            match calculation with
            | SBC_INDIVIDUAL => p_Es p
            | SBC_TARGET => sbe_target mat p concentrations
            | SBC_AVERAGE => sbe_average mat p concentrations
            end
        end).

  (** material.rs 235-243 *)
  Definition minimum_cutoff_energy (mat : Material F) : F :=
    fold_left (fun min_Ec Ec => if min_Ec >! Ec then Ec else min_Ec) (mat_Ec mat) (nsum (mat_Ec mat)).

  (** material.rs 250-254: scan of the cumulative concentrations *)
  Fixpoint choose_index (random_number : F) (component_index : nat) (cumulative : list F) : option nat :=
    match cumulative with
    | [] => None
    | c :: cs => if random_number <! c then Some component_index
                 else choose_index random_number (S component_index) cs
    end.
  (** The chosen species (the tuple of material.rs 246 and 252): index, Z, m,
      Ec, Es, Ed, interaction index. *)
  Record Species : Type := mkSpecies {
    s_index : nat; s_Z : F; s_m : F; s_Ec : F; s_Es : F; s_Ed : F; s_interaction_index : nat }.
  (** material.rs 247-255, the random number given *)
  Definition choose_with (mat : Material F) (random_number x y z : F) : Res Species :=
    let! cumulative := get_cumulative_concentrations mat x y z in
    match choose_index random_number 0 cumulative with
    | None => Panic ExplicitPanic
    | Some i =>
        let! Z := idx (mat_Z mat) i in
        let! m := idx (mat_m mat) i in
        let! Ec := idx (mat_Ec mat) i in
        let! Es := idx (mat_Es mat) i in
        let! Ed := idx (mat_Ed mat) i in
        let! ii := idx (mat_interaction_index mat) i in
        Ok (mkSpecies i Z m Ec Es Ed ii)
    end.
  (** material.rs 246-256 *)
  Definition choose (mat : Material F) (x y z : F) : M F Species :=
    do! random_number := mrandom in
    mlift (choose_with mat random_number x y z).

  (** material.rs 275-310: the stopping cross-section of one species *)
  Definition stopping_beta (E Ma : F) : F :=
    nsqrt (nZ 1 -! npowf (nZ 1 +! E /! Ma /! npowi cC 2) (nZ (-2))).
  Definition stopping_high (E Ma Za Zb : F) : F :=
    let beta := stopping_beta E Ma in
    let v := beta *! cC in
    let I0 := if Zb <! nZ 13 then nZ 12 +! nZ 7 /! Zb
              else nlit 976 (-2) +! nlit 585 (-1) *! npowf Zb (nlit (-119) (-2)) in
    let I := Zb *! I0 *! cQ in
    let B := if Zb <! nZ 3 then nZ 100 *! Za /! Zb else nZ 5 in
    let prefactor := cBETHE_BLOCH_PREFACTOR *! Zb *! Za *! Za /! beta /! beta in
    let eb := nZ 2 *! cME *! v *! v /! I in
    prefactor *! nln (eb +! nZ 1 +! B /! eb).
  Definition stopping_low (E Ma Za Zb : F) : F :=
    cLINDHARD_SCHARFF_PREFACTOR *! (npowf Za (nZ 7 /! nZ 6) *! Zb)
    /! npowf (npowf Za (nZ 2 /! nZ 3) +! npowf Zb (nZ 2 /! nZ 3)) (nZ 3 /! nZ 2)
    *! nsqrt (E /! cQ /! Ma *! cAMU).
  Definition stopping_power (mode : ElectronicStoppingMode) (ck E Ma Za Zb : F) : F :=
    let S_high := stopping_high E Ma Za Zb in
    let S_low := stopping_low E Ma Za Zb in
    match mode with
    | INTERPOLATED => nZ 1 /! (nZ 1 /! S_high +! nZ 1 /! S_low *! ck)
    | LOW_ENERGY_LOCAL | LOW_ENERGY_NONLOCAL | LOW_ENERGY_EQUIPARTITION => S_low *! ck
    end.
  (** material.rs 259-315.  NB line 272: [let z = particle_1.pos.y]. *)
  Definition electronic_stopping_cross_sections (mat : Material F) (p : Particle F)
      (mode : ElectronicStoppingMode) : Res (list F) :=
    let E := p_E p in
    let Ma := p_m p in
    let Za := p_Z p in
    let x := vx (p_pos p) in
    let y := vy (p_pos p) in
    let z := vy (p_pos p) in
    let! ck := electronic_stopping_correction_factor mat x y z in
    let! n := number_densities mat x y z in
    Ok (map (fun nZb => stopping_power mode ck E Ma Za (snd nZb)) (zip n (mat_Z mat))).

  (** material.rs 320-394 *)
  Definition surface_binding_energy (mat : Material F) (p : Particle F) : Res (Particle F) :=
    let x := vx (p_pos p) in
    let y := vy (p_pos p) in
    let z := vz (p_pos p) in
    let x_old := vx (p_pos_old p) in
    let y_old := vy (p_pos_old p) in
    let z_old := vz (p_pos_old p) in
    let cosx := vx (p_dir p) in
    let cosy := vy (p_dir p) in
    let cosz := vz (p_dir p) in
    let E := p_E p in
    let! Es := actual_surface_binding_energy mat p x_old y_old z_old in
    let! inside_now := mat_inside_energy_barrier mat x y z in
    let! inside_old := mat_inside_energy_barrier mat x_old y_old z_old in
    let leaving := negb inside_now && inside_old in
    let entering := inside_now && negb inside_old in
    if entering then
      if p_backreflected p then Ok (set_p_backreflected false p)
      else
        let! (x2, y2, z2) := mat_closest_point mat x y z in
        let dx := x2 -! x in
        let dy := y2 -! y in
        let dz := z2 -! z in
        let mag := nsqrt (dx *! dx +! dy *! dy +! dz *! dz) in
        Ok (match mat_surface_binding_model mat with
            | ISOTROPIC _ => set_p_E (p_E p +! Es) p
            | _ => surface_refraction (mkV (dx /! mag) (dy /! mag) (dz /! mag)) Es p
            end)
    else if leaving then
      let! (x2, y2, z2) := mat_closest_point mat x y z in
      let dx := x2 -! x in
      let dy := y2 -! y in
      let dz := z2 -! z in
      let mag := nsqrt (dx *! dx +! dy *! dy +! dz *! dz) in
      let costheta := dx *! cosx /! mag +! dy *! cosy /! mag +! dz *! cosz /! mag in
      let leaving_energy :=
        match mat_surface_binding_model mat with
        | ISOTROPIC _ => E
        | _ => E *! costheta *! costheta
        end in
      if costheta <! nZ 0 then
        if leaving_energy >! Es then
          Ok (match mat_surface_binding_model mat with
              | PLANAR _ | SBM_TARGET | SBM_INDIVIDUAL | SBM_AVERAGE =>
                  surface_refraction (mkV ((-! dx) /! mag) ((-! dy) /! mag) ((-! dz) /! mag)) (-! Es) p
              | _ => set_p_E (p_E p +! (-! Es)) p
              end)
        else
          Ok (set_p_backreflected true
                (set_p_dir (mkV (nZ (-2) *! costheta *! dx /! mag +! cosx)
                                (nZ (-2) *! costheta *! dy /! mag +! cosy)
                                (nZ (-2) *! costheta *! dz /! mag +! cosz)) p))
      else Ok p
    else Ok p.

  (** material.rs 397-417.  [&] on bools evaluates both sides, so the barrier
      test of the second [if] always runs. *)
  Definition boundary_condition_planar (mat : Material F) (p0 : Particle F) : Res (Particle F) :=
    let x := vx (p_pos p0) in
    let y := vy (p_pos p0) in
    let z := vz (p_pos p0) in
    let E := p_E p0 in
    let Ec := p_Ec p0 in
    let p := if negb (mat_inside_simulation_boundary mat x y z)
             then update_trajectory_tracker (set_p_left true p0) else p0 in
    let! inside_barrier := mat_inside_energy_barrier mat x y z in
    let p := if (E <! Ec) && negb (p_left p) && inside_barrier
             then update_trajectory_tracker (set_p_stopped true p) else p in
    if negb (p_stopped p) && negb (p_left p) then surface_binding_energy mat p else Ok p.
End Material.
Arguments EnergyUnit F : clear implicits.
Arguments MassUnit F : clear implicits.
Arguments MaterialParameters F : clear implicits.
Arguments Species F : clear implicits.
