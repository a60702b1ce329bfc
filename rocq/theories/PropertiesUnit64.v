(** * PropertiesUnit64.v - C131: directions in double precision *)
From Coq Require Import ZArith List Bool Reals Lra Lia Floats.SpecFloat.
From Flocq Require Import Core BinarySingleNaN.
From Verif Require Import Num NumSF NumB ModelTypes ModelParticle ModelMaterial ModelBca ProofsBase ProofsFloat SpecUnit64 ProofsUnit64.
Import ListNotations.
Open Scope R_scope.

Lemma u64_47 : 64 * u64 = / 2 ^ 47.
Proof. rewrite u64_val. lra. Qed.
(** A direction of ordinary size gets length one; each component is that of the given vector, divided by its
    length, up to 2^-51 and the 2^-50th part of the length. *)
Theorem C131_normalised :
  forall (lm : LibmB) v, ordinary v -> let n := @v_normalize f64 (NumB lm) v in
    unit_within (/ 2 ^ 47) n /\
    exists length, 0 < length /\ (1 - / 2 ^ 50) * square_length v <= length * length <= (1 + / 2 ^ 50) * square_length v /\
      Rabs (B2R (vx n) - B2R (vx v) / length) <= / 2 ^ 51 /\ Rabs (B2R (vy n) - B2R (vy v) / length) <= / 2 ^ 51 /\ Rabs (B2R (vz n) - B2R (vz v) / length) <= / 2 ^ 51.
Proof.
  intros lm v H n. destruct (normalize_near lm v H) as (U & m & M0 & MM & N1 & N2 & N3). rewrite u64_47 in U. split; [exact U|].
  exists m. split; [exact M0|]. rewrite u64_val in *. split; [split; lra|]. repeat split; eapply Rle_trans; try eassumption; lra.
Qed.
Print Assumptions C131_normalised.

(** So an accepted ion with such a direction has a direction of length one. *)
Theorem C131_accepted_ions :
  forall (lm : LibmB) i o p, @from_input f64 (NumB lm) i o = Ok p -> ordinary (mkV (pi_ux i) (pi_uy i) (pi_uz i)) -> unit_within (/ 2 ^ 47) (p_dir p).
Proof.
  intros lm i o p H Hu. unfold from_input in H. apply bind_ok in H. destruct H as (u & _ & H). apply bind_ok in H. destruct H as (u' & _ & H). injection H as <-. cbn [p_dir].
  exact (proj1 (C131_normalised lm _ Hu)).
Qed.
Print Assumptions C131_accepted_ions.

Lemma unit_ordinary v : unit_within (/ 2 ^ 47) v -> ordinary v.
Proof.
  intros (F & H). destruct F as (Fx & Fy & Fz).
  apply (turned_is_ordinary v (B2R (vx v)) (B2R (vy v)) (B2R (vz v))); try (rewrite Rminus_diag_eq, Rabs_R0 by reflexivity; lra); [repeat split; assumption|].
  unfold square_length in H. lra.
Qed.
(** A recoil starts with a direction of length one if the projectile has one. *)
Theorem C131_recoils :
  forall (lm : LibmB) mat o p g rng n species recoil n', let NB := NumB lm in
    choose_collision_partner mat o p g rng n = Ok (species, recoil, n') -> unit_within (/ 2 ^ 47) (p_dir p) -> unit_within (/ 2 ^ 47) (p_dir recoil).
Proof.
  intros lm mat o p g rng n species recoil n' NB H Hp. unfold choose_collision_partner in H.
  apply mbind_ok in H. destruct H as (s & n1 & _ & H). unfold mret in H. injection H as _ <- _.
  destruct (p_dir p) as [c b a] eqn:E. cbn. exact (proj1 (C131_normalised lm _ (unit_ordinary _ Hp))).
Qed.
Print Assumptions C131_recoils.

(** One rotation: the length stays one, and the cosine of the angle between the old and the new direction is
    the cosine the library returned for psi, up to 2^-18. *)
Theorem C131_rotation :
  forall (lm : LibmB) psi phi (p : Particle f64), unit_within (/ 2 ^ 47) (p_dir p) -> off_axis (p_dir p) -> good_angle lm psi -> good_angle lm phi ->
    let q := @rotate f64 (NumB lm) psi phi p in
    unit_within (/ 2 ^ 47) (p_dir q) /\ Rabs (product (p_dir q) (p_dir p) - B2R (lb_cos lm psi)) <= / 2 ^ 18.
Proof. intros lm psi phi p HU HO H1 H2 q. exact (rotate_near lm (p_dir p) psi phi HU HO H1 H2). Qed.
Print Assumptions C131_rotation.

(** Any number of rotations: errors do not add up. *)
Theorem C131_any_number_of_rotations :
  forall (lm : LibmB) angles (p : Particle f64), unit_within (/ 2 ^ 47) (p_dir p) ->
    (forall psi phi, In (psi, phi) angles -> good_angle lm psi /\ good_angle lm phi) ->
    (forall d, In d (removelast (directions (lm := lm) p angles)) -> off_axis d) ->
    forall d, In d (directions (lm := lm) p angles) -> unit_within (/ 2 ^ 47) d.
Proof.
  intros lm angles. induction angles as [|(psi, phi) more IH]; intros p HU HG HO d Hd; cbn [directions] in *.
  - destruct Hd as [<-|[]]. exact HU.
  - destruct Hd as [<-|Hd]; [exact HU|].
    assert (NE : directions (lm := lm) (@rotate f64 (NumB lm) psi phi p) more <> []) by (destruct more as [|(?, ?) ?]; discriminate).
    assert (O : off_axis (p_dir p)).
    { apply HO. destruct (directions (lm := lm) (@rotate f64 (NumB lm) psi phi p) more); [contradiction|]. left. reflexivity. }
    destruct (HG psi phi (or_introl eq_refl)) as (G1 & G2).
    apply (IH (@rotate f64 (NumB lm) psi phi p)); [exact (proj1 (C131_rotation lm psi phi p HU O G1 G2))| | |exact Hd].
    + intros a b H. apply HG. right. exact H.
    + intros d' H. apply HO. cbn [removelast]. destruct (directions (lm := lm) (@rotate f64 (NumB lm) psi phi p) more); [contradiction|]. right. exact H.
Qed.
Print Assumptions C131_any_number_of_rotations.

(** ** The hypotheses can be met *)
(** a library for which every angle is that of the triangle 3, 4, 5 *)
Definition sine_06 : f64 := of_sf (sf_lit 6 (-1)).
Definition cosine_08 : f64 := of_sf (sf_lit 8 (-1)).
Definition triangle : LibmB := let s := fun _ => sine_06 in let c := fun _ => cosine_08 in let i := fun x : f64 => x in
  {| lb_exp := i; lb_ln := i; lb_sin := s; lb_cos := c; lb_asin := i; lb_acos := i; lb_atan2 := fun x _ => x; lb_powf := fun x _ => x; lb_powi := fun x _ => x |}.
Lemma value_of (x : f64) m e : B2SF x = S754_finite false m e -> is_finite x = true /\ B2R x = IZR (Zpos m) * bpow radix2 e.
Proof. intros E. split; [rewrite <- is_finite_SF_B2SF, E; reflexivity|]. rewrite <- SF2R_B2SF, E. reflexivity. Qed.
Lemma triangle_good a : good_angle triangle a.
Proof.
  unfold good_angle. cbn [lb_sin lb_cos triangle].
  destruct (value_of sine_06 5404319552844595 (-53) ltac:(vm_compute; reflexivity)) as (F1 & ->). destruct (value_of cosine_08 7205759403792794 (-53) ltac:(vm_compute; reflexivity)) as (F2 & ->).
  split; [exact F1|]. split; [exact F2|]. cbn. apply Rabs_le. lra.
Qed.
Definition zero_64 : f64 := B754_zero false.
Definition one_64 : f64 := of_sf (sf_lit 1 0).
Lemma one_64_val : is_finite one_64 = true /\ B2R one_64 = 1.
Proof. destruct (value_of one_64 4503599627370496 (-52) ltac:(vm_compute; reflexivity)) as (F & ->). split; [exact F|]. cbn. lra. Qed.
(** an ion along y, turned three times *)
Definition sideways : Particle f64 := let NB := NumB triangle in
  particle_new one_64 one_64 one_64 one_64 one_64 one_64 zero_64 zero_64 zero_64 zero_64 one_64 zero_64 true false 0%nat.
Definition below_half (x : f64) : bool := match B2SF x with S754_zero _ => true | S754_finite _ _ _ => Bleb (Babs x) (of_sf (sf_lit 5 (-1))) | _ => false end.
Lemma below_half_off v : below_half (vx v) = true -> off_axis v.
Proof.
  unfold below_half, off_axis. destruct (value_of (of_sf (sf_lit 5 (-1))) 4503599627370496 (-53) ltac:(vm_compute; reflexivity)) as (Fh & Vh).
  destruct (vx v) as [s|s| |s m e H] eqn:E; try discriminate.
  - intros _. cbn [B2R]. rewrite Rabs_R0. lra.
  - rewrite <- E. intros K. assert (F : is_finite (Babs (vx v)) = true) by (rewrite E; reflexivity). assert (K' : Bleb (Babs (vx v)) (of_sf (sf_lit 5 (-1))) = true) by (rewrite E in *; exact K).
    apply (le_fin _ _ F Fh) in K'. rewrite B2R_Babs, Vh in K'. cbn in K'. lra.
Qed.
Example C131_rotations_apply :
  unit_within (/ 2 ^ 47) (p_dir sideways) /\
  (forall psi phi, In (psi, phi) [(one_64, one_64); (zero_64, one_64); (one_64, zero_64)] -> good_angle triangle psi /\ good_angle triangle phi) /\
  (forall d, In d (removelast (directions (lm := triangle) sideways [(one_64, one_64); (zero_64, one_64)])) -> off_axis d) /\
  length (directions (lm := triangle) sideways [(one_64, one_64); (zero_64, one_64)]) = 3%nat.
Proof.
  split; [|split; [|split; [|reflexivity]]].
  - change (p_dir sideways) with (@v_normalize f64 (NumB triangle) (mkV zero_64 one_64 zero_64)).
    refine (proj1 (C131_normalised triangle _ _)). destruct one_64_val as (F & V).
    assert (L : forall k, (0 <= k)%Z -> 1 <= bpow radix2 k) by (intros k Hk; change 1 with (bpow radix2 0); apply bpow_le; exact Hk).
    split; [repeat split; exact F|]. cbn [vx vy vz]. change (B2R zero_64) with 0. rewrite V, Rabs_R0, Rabs_R1. split; [repeat split; try apply bpow_ge_0; apply L; lia|].
    right. left. change 1 with (bpow radix2 0). apply bpow_le. lia.
  - intros psi phi _. split; apply triangle_good.
  - intros d Hd. apply below_half_off.
    assert (A : forallb (fun d => below_half (vx d)) (removelast (directions (lm := triangle) sideways [(one_64, one_64); (zero_64, one_64)])) = true) by (vm_compute; reflexivity).
    rewrite forallb_forall in A. exact (A d Hd).
Qed.
(** The ion of this input is accepted: a direction of ordinary size, 3 to 4. *)
Definition slanted : ParticleInput f64 := {|
  pi_m := one_64; pi_Z := one_64; pi_E := one_64; pi_Ec := one_64; pi_Es := one_64; pi_x := zero_64; pi_y := zero_64; pi_z := zero_64;
  pi_ux := sine_06; pi_uy := cosine_08; pi_uz := zero_64; pi_interaction_index := 0%nat; pi_weight := one_64; pi_tag := 0%Z |}.
Example C131_ions_apply : (forall o, exists p, @from_input f64 (NumB triangle) slanted o = Ok p) /\ ordinary (mkV (pi_ux slanted) (pi_uy slanted) (pi_uz slanted)).
Proof.
  split.
  - intros o. unfold from_input, rassert.
    repeat match goal with |- context [if ?b then Ok tt else _] => replace b with true by (vm_compute; reflexivity) end. cbn [bind]. eexists. reflexivity.
  - cbn [pi_ux pi_uy pi_uz slanted].
    destruct (value_of sine_06 5404319552844595 (-53) ltac:(vm_compute; reflexivity)) as (F1 & V1). destruct (value_of cosine_08 7205759403792794 (-53) ltac:(vm_compute; reflexivity)) as (F2 & V2).
    apply unit_ordinary. split; [repeat split; assumption|]. unfold square_length. cbn [vx vy vz]. change (B2R zero_64) with 0. rewrite V1, V2. cbn. apply Rabs_le. lra.
Qed.
