(** * ProofsLib.v - the C and Python interfaces *)
From Coq Require Import ZArith List Bool Lia Reals Lra Permutation.
From Verif Require Import Num NumR ModelTypes ModelConsts ModelParticle ModelGeometry ModelMaterial ModelBca ModelInput ModelLib
  Spec SpecLib ProofsBase ProofsBca.
Import ListNotations.
Open Scope nat_scope.

Section Lists.
  Context {F : Type} {NF : Num F}.

  Lemma tagged_collect_spec (ps : list (Particle F)) : forall total tags weights incident,
    tagged_collect ps total tags weights incident =
    (total ++ map row9_tagged (filter reported ps), tags ++ map p_tag (filter reported ps),
     weights ++ map p_weight (filter reported ps), incident ++ map p_incident (filter reported ps)).
  Proof.
    induction ps as [|p ps IH]; intros; cbn [tagged_collect filter map]; [rewrite !app_nil_r; reflexivity|].
    change (emitted p) with (reported p). destruct (reported p); rewrite IH; [|reflexivity].
    cbn [map]. rewrite <- !app_assoc. reflexivity.
  Qed.
  Lemma py_collect_spec (ps : list (Particle F)) : forall rows incident stopped,
    py_collect ps rows incident stopped =
    (rows ++ map row9_py (filter reported ps), incident ++ map p_incident (filter reported ps),
     stopped ++ map p_stopped (filter reported ps)).
  Proof.
    induction ps as [|p ps IH]; intros; cbn [py_collect filter map]; [rewrite !app_nil_r; reflexivity|].
    change (emitted p) with (reported p). destruct (reported p); rewrite IH; [|reflexivity].
    cbn [map]. rewrite <- !app_assoc. reflexivity.
  Qed.

  Lemma tagged_loop_inv build mat options fuel inp x vs : forall k rng n ps n',
    tagged_loop build mat options fuel inp x k vs rng n = Ok (ps, n') ->
    exists outs, ps = concat outs /\ length outs = length vs /\
      forall j v out, nth_error vs j = Some v -> nth_error outs j = Some out ->
        exists ion a b, tagged_ion inp x (k + j) v = Ok ion /\ single_ion_bca build mat options fuel ion rng a = Ok (out, b).
  Proof.
    induction vs as [|v vs IH]; intros k rng n ps n' H; cbn [tagged_loop] in H.
    - apply mret_ok in H. destruct H as (-> & _). exists []. repeat split. intros [|j] v out Hv; discriminate.
    - apply mbind_ok in H. destruct H as (ion & n1 & Hi & H). apply mlift_ok in Hi. destruct Hi as (Hi & ->).
      apply mbind_ok in H. destruct H as (out & n2 & Ho & H).
      apply mbind_ok in H. destruct H as (ps' & n3 & Hl & H). apply mret_ok in H. destruct H as (-> & _).
      apply IH in Hl. destruct Hl as (outs & -> & Hlen & Hall). exists (out :: outs).
      split; [reflexivity|]. split; [cbn; congruence|]. intros [|j] w o Hw Hj; cbn in Hw, Hj.
      + injection Hw as <-. injection Hj as <-. rewrite Nat.add_0_r. eauto.
      + destruct (Hall j w o Hw Hj) as (ion' & a & b & H1 & H2). exists ion', a, b.
        replace (k + S j) with (S k + j) by lia. auto.
  Qed.
  Lemma py_loop_inv build mat options fuel x is : forall rng n ps n',
    py_loop build mat options fuel x is rng n = Ok (ps, n') ->
    exists outs, ps = concat outs /\
      Forall2 (fun i out => exists ion a b,
        default_incident (py_m1 i) (py_Z1 i) (py_energy i) (py_Ec1 i) (py_Es1 i) x (py_ux i) (py_uy i) (py_uz i) = Ok ion /\
        single_ion_bca build mat options fuel ion rng a = Ok (out, b)) is outs.
  Proof.
    induction is as [|i is IH]; intros rng n ps n' H; cbn [py_loop] in H.
    - apply mret_ok in H. destruct H as (-> & _). exists []. split; constructor.
    - apply mbind_ok in H. destruct H as (ion & n1 & Hi & H). apply mlift_ok in Hi. destruct Hi as (Hi & ->).
      apply mbind_ok in H. destruct H as (out & n2 & Ho & H).
      apply mbind_ok in H. destruct H as (ps' & n3 & Hl & H). apply mret_ok in H. destruct H as (-> & _).
      apply IH in Hl. destruct Hl as (outs & -> & Hall). exists (out :: outs). split; [reflexivity|]. constructor; eauto 7.
  Qed.
  Lemma run_all_inv build mat options fuel ps : forall rng n out n',
    run_all build mat options fuel ps rng n = Ok (out, n') ->
    exists outs, out = concat outs /\
      Forall2 (fun p o => exists a b, single_ion_bca build mat options fuel p rng a = Ok (o, b)) ps outs.
  Proof.
    induction ps as [|p ps IH]; intros rng n ps' n' H; cbn [run_all] in H.
    - apply mret_ok in H. destruct H as (-> & _). exists []. split; constructor.
    - apply mbind_ok in H. destruct H as (out & n2 & Ho & H).
      apply mbind_ok in H. destruct H as (rest & n3 & Hl & H). apply mret_ok in H. destruct H as (-> & _).
      apply IH in Hl. destruct Hl as (outs & -> & Hall). exists (out :: outs). split; [reflexivity|]. constructor; eauto.
  Qed.

  (** every particle of a run carries the weight, tag and tracked vector of the ion *)
  Lemma run_inherits build mat options fuel (ion : Particle F) rng n out n' :
    single_ion_bca build mat options fuel ion rng n = Ok (out, n') ->
    Forall (fun p => p_weight p = p_weight ion /\ p_tag p = p_tag ion /\ p_tracked_vector p = p_tracked_vector ion) out.
  Proof.
    intros H. pose proof (run_first _ _ _ _ _ _ _ _ _ H) as (ion' & rs & -> & Hid & _).
    apply run_recoils in H. cbn [tl] in H. constructor.
    - destruct Hid as (_&_&_&_&_&_&_&_&_&_&H1&H2&H3). auto.
    - eapply Forall_impl; [|exact H]. intros r (_&_&_&_&H1&H2&H3&_). auto.
  Qed.
  (** exactly one incident particle *)
  Lemma run_one_incident build mat options fuel (ion : Particle F) rng n out n' :
    single_ion_bca build mat options fuel ion rng n = Ok (out, n') -> p_incident ion = true ->
    length (filter p_incident out) = 1.
  Proof.
    intros H Hi. apply run_first in H. destruct H as (ion' & rs & -> & Hid & Hr). cbn [filter].
    destruct Hid as (_&_&_&_&_&_&_&H&_). rewrite <- H, Hi. cbn [length]. f_equal.
    clear -Hr. induction Hr as [|r rs Hr _ IH]; [reflexivity|]. cbn [filter]. rewrite Hr. exact IH.
  Qed.
  Lemma default_incident_flag (m Z E Ec Es x a b c : F) p : default_incident m Z E Ec Es x a b c = Ok p -> p_incident p = true.
  Proof.
    unfold default_incident. intros H. apply bind_ok in H. destruct H as (? & _ & H).
    apply bind_ok in H. destruct H as (? & _ & H). injection H as <-. reflexivity.
  Qed.

  Lemma map_const_repeat {A B} (f : A -> B) b l : Forall (fun a => f a = b) l -> map f l = repeat b (length l).
  Proof. induction 1 as [|a l H _ IH]; cbn; [reflexivity|]. rewrite H, IH. reflexivity. Qed.
  Lemma concat_nth_map {A B C} (f : B -> A) (g : C -> B) : forall (ts : list A) (outs : list (list C)),
    (forall j out, nth_error outs j = Some out -> exists t, nth_error ts j = Some t /\ Forall (fun c => f (g c) = t) out) ->
    map (fun c => f (g c)) (concat outs) = replicate_each ts (map (@length C) outs).
  Proof.
    intros ts outs. revert ts. induction outs as [|out outs IH]; intros ts H.
    - unfold replicate_each. cbn. destruct ts; reflexivity.
    - destruct (H 0 out eq_refl) as (t & Ht & Hf). destruct ts as [|t' ts]; [discriminate|]. injection Ht as ->.
      cbn [concat map]. rewrite map_app, (map_const_repeat _ t _ Hf). unfold replicate_each. cbn [combine map concat fst snd]. f_equal.
      apply IH. intros j o Hj. exact (H (S j) o Hj).
  Qed.
  Lemma filter_concat {A} (t : A -> bool) (ls : list (list A)) : filter t (concat ls) = concat (map (filter t) ls).
  Proof. induction ls as [|l ls IH]; [reflexivity|]. cbn. rewrite filter_app, IH. reflexivity. Qed.
End Lists.

(** ** interleavings *)
Lemma interleave_perm {A} (ls : list (list A)) t : Interleave ls t -> Permutation (concat ls) t.
Proof.
  induction 1 as [ls H|ls1 a l ls2 t _ IH].
  - assert (concat ls = []) as ->; [|constructor]. induction H as [|l ls -> _ IH]; [reflexivity|exact IH].
  - rewrite concat_app in *. cbn [concat] in *. cbn [app]. rewrite <- Permutation_middle. constructor. exact IH.
Qed.
Lemma interleave_sequential {A} (ls : list (list A)) : Interleave ls (concat ls).
Proof.
  cut (forall ls (pre : list (list A)), Forall (fun l => l = []) pre -> Interleave (pre ++ ls) (concat ls)).
  { intros H. exact (H ls [] (Forall_nil _)). }
  clear ls. induction ls as [|l ls IH]; intros pre Hp.
  - rewrite app_nil_r. constructor. exact Hp.
  - induction l as [|a l IHl]; cbn [concat app].
    + change ([] :: ls) with ([[]] ++ ls). rewrite app_assoc. apply IH. apply Forall_app. split; [exact Hp|repeat constructor].
    + constructor. exact IHl.
Qed.
Lemma filter_perm {A} (t : A -> bool) l l' : Permutation l l' -> Permutation (filter t l) (filter t l').
Proof.
  induction 1 as [|x l l' _ IH|x y l|l l' l'' _ IH1 _ IH2]; cbn.
  - constructor.
  - destruct (t x); [constructor|]; exact IH.
  - destruct (t x), (t y); try apply perm_swap; apply Permutation_refl.
  - eapply Permutation_trans; eassumption.
Qed.
Lemma Forall2_imp {A B} (P Q : A -> B -> Prop) l m : (forall a b, P a b -> Q a b) -> Forall2 P l m -> Forall2 Q l m.
Proof. intros H. induction 1; constructor; auto. Qed.
Lemma Forall2_len {A B} (P : A -> B -> Prop) l m : Forall2 P l m -> length l = length m.
Proof. induction 1; cbn; congruence. Qed.
