(** * ToyRun.v - realistic runs of the model in binary64: 15 eV helium on copper
    (Kr-C potential, Newton's method, Mendenhall-Weller quadrature), with the
    series library and pseudo-random numbers. *)
From Coq Require Import ZArith List Bool Floats.SpecFloat.
From Verif Require Import Num NumSF ToyLibm ModelTypes ModelConsts ModelParticle ModelMaterial ModelBca ModelInput ModelLib ProofsLib.
Import ListNotations.
Open Scope nat_scope.

Definition series_num : Num spec_float := NumSF series_libm.
#[local] Existing Instance series_num.

(** a linear congruential generator *)
Definition lcg (seed : Z) : Rng spec_float := fun k =>
  let s := Nat.iter (S k) (fun s => (s * 1103515245 + 12345) mod 2147483648)%Z seed in
  sf_lit (s * 1000000 / 2147483648) (-6).
Definition helium_samples (track_recoils : bool) (seeds : list Z) : Res ((Material spec_float * spec_float) * list (list (Particle spec_float))) :=
  let! mx := yield_target [nZ 29] [nZ 63] [nZ 1] [nlit 1 (-1)] [nZ 0] [nlit 85 27] in
  let! outs := mapM (yield_sample None 200 (fst mx) (default_options track_recoils) (snd mx) (nZ 4) (nZ 2) (nZ 15) (nZ 1) (nZ 0) (incidence (nZ 30)))
                 (map lcg seeds) in
  Ok (mx, outs).
Definition passes {A} (test : A -> bool) (r : Res A) : bool := match r with Ok a => test a | _ => false end.
Lemma samples_inv {A B} (r : Res A) (f : A -> Res B) (test : A * B -> bool) :
  passes test (let! a := r in let! b := f a in Ok (a, b)) = true -> exists a b, r = Ok a /\ f a = Ok b /\ test (a, b) = true.
Proof. destruct r as [a|k|]; try discriminate. cbn. destruct (f a) as [b|k|] eqn:E; try discriminate. cbn. eauto. Qed.
Lemma helium_inv recoils seeds test : passes test (helium_samples recoils seeds) = true ->
  exists mat x outs,
    yield_target [nZ 29] [nZ 63] [nZ 1] [nlit 1 (-1)] [nZ 0] [nlit 85 27] = Ok (mat, x) /\
    mapM (yield_sample None 200 mat (default_options recoils) x (nZ 4) (nZ 2) (nZ 15) (nZ 1) (nZ 0) (incidence (nZ 30))) (map lcg seeds) = Ok outs /\
    test ((mat, x), outs) = true.
Proof. intros H. apply samples_inv in H. destruct H as ([mat x] & outs & H1 & H2 & H3). exists mat, x, outs. auto. Qed.

(** Samples 6, 8 and 10 are reflected; adding up their energies forwards and
    backwards gives different results. *)
Definition differ (o : (Material spec_float * spec_float) * list (list (Particle spec_float))) : bool :=
  match snd o with
  | [[a]; [b]; [c]] =>
      SFeqb (fst (reflection_coefficient_of (nZ 15) 3 [a; b; c])) (sf_lit 1 0) &&
      SFeqb (fst (reflection_coefficient_of (nZ 15) 3 [c; b; a])) (sf_lit 1 0) &&
      negb (SFeqb (snd (reflection_coefficient_of (nZ 15) 3 [a; b; c])) (snd (reflection_coefficient_of (nZ 15) 3 [c; b; a])))
  | _ => false
  end.
Lemma forward_backward_differ : passes differ (helium_samples false [6; 8; 10]%Z) = true.
Proof. vm_compute. reflexivity. Qed.
Lemma angle_accepted : rassert (nabs (nZ 30) <=! nZ 90)%num = Ok tt.
Proof. vm_compute. reflexivity. Qed.
Lemma reflection_depends_on_schedule : exists r1 r2,
  reflection_coefficient None 200 (nZ 2) (nZ 4) (nZ 1) (nZ 0) [nZ 29] [nZ 63] [nZ 1] [nlit 1 (-1)] [nZ 0] [nlit 85 27] (nZ 15) (nZ 30)
    (map lcg [6; 8; 10]%Z) r1 /\
  reflection_coefficient None 200 (nZ 2) (nZ 4) (nZ 1) (nZ 0) [nZ 29] [nZ 63] [nZ 1] [nlit 1 (-1)] [nZ 0] [nlit 85 27] (nZ 15) (nZ 30)
    (map lcg [6; 8; 10]%Z) r2 /\
  SFeqb (fst r1) (sf_lit 1 0) = true /\ SFeqb (fst r2) (sf_lit 1 0) = true /\ SFeqb (snd r1) (snd r2) = false.
Proof.
  destruct (helium_inv _ _ _ forward_backward_differ) as (mat & x & outs & Ht & Hm & H). unfold differ in H. cbn [snd] in H.
  destruct outs as [|[|a [|]] [|[|b [|]] [|[|c [|]] [|]]]]; try discriminate H.
  apply andb_true_iff in H. destruct H as (H & H3). apply andb_true_iff in H. destruct H as (H1 & H2).
  apply negb_true_iff in H3.
  exists (reflection_coefficient_of (nZ 15) 3 [a; b; c]), (reflection_coefficient_of (nZ 15) 3 [c; b; a]).
  split; [|split; [|repeat split; assumption]].
  - exists mat, x, [[a]; [b]; [c]], [a; b; c]. split; [exact angle_accepted|]. split; [exact Ht|]. split; [exact Hm|].
    split; [apply (interleave_sequential [[a]; [b]; [c]])|reflexivity].
  - exists mat, x, [[a]; [b]; [c]], [c; b; a]. split; [exact angle_accepted|]. split; [exact Ht|]. split; [exact Hm|].
    split; [|reflexivity].
    apply (il_step [[a]; [b]] c [] []). apply (il_step [[a]] b [] [[]]). apply (il_step [] a [] [[]; []]). constructor. repeat constructor.
Qed.
(** Samples 7 and 11: two recoils are sputtered by the first ion, the second is
    reflected. *)
Definition two_sputtered (o : (Material spec_float * spec_float) * list (list (Particle spec_float))) : bool :=
  Nat.eqb (length (filter (counted false) (concat (snd o)))) 2 && Nat.eqb (length (filter (counted true) (concat (snd o)))) 1.
Lemma two_sputtered_true : passes two_sputtered (helium_samples true [7; 11]%Z) = true.
Proof. vm_compute. reflexivity. Qed.
Lemma yield_is_one : exists r,
  sputtering_yield None 200 (nZ 2) (nZ 4) (nZ 1) (nZ 0) (nZ 29) (nZ 63) (nZ 1) (nlit 1 (-1)) (nZ 0) (nlit 85 27) (nZ 15) (nZ 30)
    (map lcg [7; 11]%Z) r /\ SFeqb r (sf_lit 1 0) = true.
Proof.
  destruct (helium_inv _ _ _ two_sputtered_true) as (mat & x & outs & Ht & Hm & H). unfold two_sputtered in H. cbn [snd] in H.
  apply andb_true_iff in H. destruct H as (H & _). apply Nat.eqb_eq in H.
  exists (sputtering_yield_of 2 (concat outs)). split.
  - exists mat, x, outs, (concat outs). split; [exact angle_accepted|]. split; [exact Ht|]. split; [exact Hm|].
    split; [apply interleave_sequential|reflexivity].
  - unfold sputtering_yield_of. rewrite H. vm_compute. reflexivity.
Qed.
