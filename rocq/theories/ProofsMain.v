(** * ProofsMain.v - lemmas about the whole program *)
From Coq Require Import ZArith List Bool String Ascii Lia.
From Verif Require Import Num ModelTypes ModelParticle ModelGeometry ModelMaterial ModelBca ModelInput ModelToml ModelOutput ModelPhysics ModelMain
  ProofsBase ProofsInput ProofsToml Spec SpecRun SpecToml SpecMain ProofsRun.
Import ListNotations.
Open Scope string_scope.
Open Scope nat_scope.

(** ** Names *)
Lemma append_inj (n a b : string) : n ++ a = n ++ b -> a = b.
Proof. induction n as [|c n IH]; cbn; intros H; [exact H|]. injection H as H. auto. Qed.
Lemma append_length (a b : string) : String.length (a ++ b) = String.length a + String.length b.
Proof. induction a as [|c a IH]; cbn; [reflexivity|]. rewrite IH. reflexivity. Qed.
(** two ways to cut one string: one tail is a tail of the other *)
Lemma append_tails (n1 : string) : forall n2 a b, n1 ++ a = n2 ++ b -> (exists c, n1 = n2 ++ c /\ b = c ++ a) \/ (exists c, n2 = n1 ++ c /\ a = c ++ b).
Proof.
  induction n1 as [|x n1 IH]; intros n2 a b H; cbn in H.
  - right. exists n2. auto.
  - destruct n2 as [|y n2]; cbn in H.
    + left. exists (String x n1). auto.
    + injection H as -> H. destruct (IH _ _ _ H) as [(c & -> & ->)|(c & -> & ->)]; [left|right]; exists c; auto.
Qed.
Fixpoint tails (s : string) : list string := s :: match s with EmptyString => [] | String _ s' => tails s' end.
Lemma in_tails c a : In a (tails (c ++ a)).
Proof. induction c as [|x c IH]; cbn; [destruct a; left; reflexivity|right; exact IH]. Qed.
Lemma append_nil_r s : s ++ "" = s.
Proof. induction s as [|c s IH]; cbn; [reflexivity|rewrite IH; reflexivity]. Qed.
Lemma tail_self c a : c ++ a = a -> c = "".
Proof. intros H. apply (f_equal String.length) in H. rewrite append_length in H. destruct c; [reflexivity|cbn in H; lia]. Qed.
Definition tails_distinct (l : list string) : bool :=
  forallb (fun a => forallb (fun b => String.eqb a b || negb (existsb (String.eqb a) (tails b))) l) l.
Lemma names_apart l n1 n2 a b : tails_distinct l = true -> In a l -> In b l -> n1 ++ a = n2 ++ b -> n1 = n2 /\ a = b.
Proof.
  intros HT Ha Hb H. unfold tails_distinct in HT. rewrite forallb_forall in HT.
  assert (G : forall x y c, In x l -> In y l -> y = c ++ x -> c = "" /\ x = y).
  { intros x y c Hx Hy E. specialize (HT x Hx). rewrite forallb_forall in HT. specialize (HT y Hy).
    assert (Ht : existsb (String.eqb x) (tails y) = true).
    { apply existsb_exists. exists x. split; [rewrite E; apply in_tails|apply String.eqb_refl]. }
    rewrite Ht in HT. cbn [negb] in HT. rewrite orb_false_r in HT. apply String.eqb_eq in HT.
    split; [apply (tail_self c x); rewrite <- E; symmetry; exact HT|exact HT]. }
  destruct (append_tails _ _ _ _ H) as [(c & E1 & E2)|(c & E1 & E2)].
  - destruct (G a b c Ha Hb E2) as (-> & ->). rewrite append_nil_r in E1. auto.
  - destruct (G b a c Hb Ha E2) as (-> & ->). rewrite append_nil_r in E1. auto.
Qed.
Lemma output_names_paths name : output_names name = output_paths name.
Proof. reflexivity. Qed.
Lemma names_disjoint n1 n2 path : n1 <> n2 -> In path (output_names n1) -> In path (output_names n2) -> False.
Proof.
  intros Hn H1 H2. unfold output_names in *. apply in_map_iff in H1. apply in_map_iff in H2. destruct H1 as (a & <- & Ha), H2 as (b & E & Hb).
  eapply Hn. eapply (names_apart _ n1 n2 a b); [|exact Ha|exact Hb|symmetry; exact E]. vm_compute. reflexivity.
Qed.

Section Main.
  Context {F : Type} {NF : Num F}.

  (** ** Files *)
  Lemma put_same (path : string) c (fs : FileSystem F) : put path c fs path = Some c.
  Proof. unfold put. rewrite String.eqb_refl. reflexivity. Qed.
  Lemma put_other (path q : string) c (fs : FileSystem F) : path <> q -> put path c fs q = fs q.
  Proof. intros H. unfold put. rewrite (proj2 (String.eqb_neq _ _) H). reflexivity. Qed.
  Lemma list_path_inj name f g : list_path name f = list_path name g -> f = g.
  Proof. intros H. apply append_inj in H. destruct f, g; first [reflexivity|discriminate H]. Qed.
  Lemma summary_not_list name f : summary_path name <> list_path name f.
  Proof. intros H. apply append_inj in H. destruct f; discriminate H. Qed.
  Lemma put_lists_at name rows fl : NoDup fl -> forall (fs : FileSystem F) f, In f fl -> put_lists name fl rows fs (list_path name f) = Some (Rows (rows f)).
  Proof.
    induction fl as [|g fl IH]; intros Hd fs f Hf; [destruct Hf|]. inversion Hd as [|? ? Hn Hd']; subst. cbn [put_lists].
    destruct Hf as [->|Hf]; [|apply IH; assumption].
    assert (G : forall fl (fs : FileSystem F), ~ In f fl -> put_lists name fl rows fs (list_path name f) = fs (list_path name f)).
    { clear. induction fl as [|g fl IH]; intros fs Hn; [reflexivity|]. cbn [put_lists]. rewrite IH by (intros H; apply Hn; right; exact H).
      apply put_other. intros E. apply list_path_inj in E. apply Hn. left. exact E. }
    rewrite G by exact Hn. apply put_same.
  Qed.
  Lemma put_lists_other name rows fl : forall (fs : FileSystem F) q, (forall f, In f fl -> list_path name f <> q) -> put_lists name fl rows fs q = fs q.
  Proof.
    induction fl as [|g fl IH]; intros fs q H; [reflexivity|]. cbn [put_lists]. rewrite IH by (intros f Hf; apply H; right; exact Hf).
    apply put_other. apply H. left. reflexivity.
  Qed.
  Lemma with_output_list name rows summary (fs : FileSystem F) f : with_output name rows summary fs (list_path name f) = Some (Rows (rows f)).
  Proof.
    unfold with_output. rewrite put_other by apply summary_not_list. apply put_lists_at; [|destruct f; cbn; tauto].
    unfold list_files. repeat constructor; cbn; intuition discriminate.
  Qed.
  Lemma with_output_summary name rows summary (fs : FileSystem F) : with_output name rows summary fs (summary_path name) = Some (Rows summary).
  Proof. apply put_same. Qed.
  Lemma with_output_other name rows summary (fs : FileSystem F) q : ~ In q (output_names name) -> with_output name rows summary fs q = fs q.
  Proof.
    intros H. unfold with_output. rewrite put_other.
    - apply put_lists_other. intros f _ E. apply H. rewrite <- E. rewrite output_names_paths. apply in_or_app. left. apply in_map. destruct f; cbn; tauto.
    - intros E. apply H. rewrite <- E, output_names_paths. apply in_or_app. right. left. reflexivity.
  Qed.
  Lemma truncated_at paths : forall (fs : FileSystem F) q, truncated paths fs q = fs q \/ (truncated paths fs q = Some (Rows []) /\ In q paths).
  Proof.
    induction paths as [|p paths IH]; intros fs q; [left; reflexivity|]. cbn [truncated].
    destruct (IH (put p (Rows []) fs) q) as [E|(E & Hi)].
    - destruct (string_dec p q) as [->|Hn]; [right; rewrite E, put_same; split; [reflexivity|left; reflexivity]|].
      left. rewrite E. apply put_other. exact Hn.
    - right. split; [exact E|right; exact Hi].
  Qed.

  (** ** The loop *)
  Lemma loop_at_chunk_loop run o u ions s es cs : @loop_at F NF run o u ions s es cs ->
    exists r0, List.concat r0 = es /\
      chunk_loop run o u sps_new (chunks (Nat.div (List.length ions) (o_num_chunks o)) ions) =
      (let! (s', r) := chunk_loop run o u s cs in Ok (s', (r0 ++ r)%list)).
  Proof.
    induction 1 as [|s es c cs out s' ev H IH Hr Hp].
    - exists []. split; [reflexivity|]. destruct (chunk_loop _ _ _ _ _) as [(s' & r)| |]; reflexivity.
    - destruct IH as (r0 & E & IH). exists (r0 ++ [ev])%list. split; [rewrite concat_app, E; cbn [List.concat]; rewrite app_nil_r; reflexivity|].
      rewrite IH. cbn [chunk_loop]. rewrite Hr. cbn [bind]. rewrite Hp. cbn [bind].
      destruct (chunk_loop run o u s' cs) as [(s2 & r)| |]; cbn [bind]; [|reflexivity|reflexivity]. rewrite <- app_assoc. reflexivity.
  Qed.
  Lemma chunk_loop_loop_at run o u ions cs : forall s es sF r,
    @loop_at F NF run o u ions s es cs -> chunk_loop run o u s cs = Ok (sF, r) -> @loop_at F NF run o u ions sF (es ++ List.concat r)%list [].
  Proof.
    induction cs as [|c cs IH]; intros s es sF r H Hc; cbn [chunk_loop] in Hc.
    - injection Hc as <- <-. cbn [List.concat]. rewrite app_nil_r. exact H.
    - apply bind_ok in Hc. destruct Hc as (out & Ho & Hc). apply bind_ok in Hc. destruct Hc as ((s' & ev) & Hp & Hc).
      apply bind_ok in Hc. destruct Hc as ((s2 & rest) & Hrest & E). injection E as <- <-. cbn [List.concat]. rewrite app_assoc.
      eapply IH; [|exact Hrest]. econstructor; eauto.
  Qed.
  Lemma physics_loop_unfold run o u (ions : list (Ion F)) : 0 < Nat.div (List.length ions) (o_num_chunks o) ->
    physics_loop run o u ions = chunk_loop run o u sps_new (chunks (Nat.div (List.length ions) (o_num_chunks o)) ions).
  Proof.
    intros H. unfold physics_loop. destruct (o_num_chunks o) as [|k] eqn:E; [cbn in H; lia|].
    apply Nat.ltb_lt in H. cbv zeta. rewrite H. reflexivity.
  Qed.
  Lemma loop_done run o u ions s es : 0 < Nat.div (List.length ions) (o_num_chunks o) ->
    @loop_at F NF run o u ions s es [] <-> exists r, physics_loop run o u ions = Ok (s, r) /\ List.concat r = es.
  Proof.
    intros H0. rewrite physics_loop_unfold by exact H0. split.
    - intros H. destruct (loop_at_chunk_loop _ _ _ _ _ _ _ H) as (r0 & E & ->). exists r0. cbn. rewrite app_nil_r. auto.
    - intros (r & H & <-). change (List.concat r) with ([] ++ List.concat r)%list. eapply chunk_loop_loop_at; [constructor|exact H].
  Qed.
  (** what a run has done when it dies is the beginning of what it would have done *)
  Lemma loop_prefix run o u ions s es c cs written later sF r : 0 < Nat.div (List.length ions) (o_num_chunks o) ->
    @loop_at F NF run o u ions s es (c :: cs) ->
    (written = [] \/ exists out s' ev, run c = Ok out /\ process_chunk o u s out = Ok (s', ev) /\ ev = (written ++ later)%list) ->
    physics_loop run o u ions = Ok (sF, r) -> prefix (es ++ written) (List.concat r).
  Proof.
    intros H0 H Hw Hp. rewrite physics_loop_unfold in Hp by exact H0. destruct (loop_at_chunk_loop _ _ _ _ _ _ _ H) as (r0 & <- & E).
    rewrite E in Hp. apply bind_ok in Hp. destruct Hp as ((s2 & r2) & Hr & Hp). injection Hp as _ <-.
    destruct Hw as [->|(out & s' & ev & Ho & Hp & ->)].
    - exists (List.concat r2). rewrite app_nil_r, concat_app. reflexivity.
    - cbn [chunk_loop] in Hr. rewrite Ho in Hr. cbn [bind] in Hr. rewrite Hp in Hr. cbn [bind] in Hr.
      apply bind_ok in Hr. destruct Hr as ((s3 & r3) & _ & Hr). injection Hr as _ <-.
      exists (later ++ List.concat r3)%list. rewrite concat_app. cbn [List.concat]. rewrite !app_assoc. reflexivity.
  Qed.
  Lemma rows_prefix f (a b : list (Event F)) : prefix a b -> prefix (rows_of f a) (rows_of f b).
  Proof. intros (c & ->). exists (rows_of f c). apply rows_app. Qed.
  Lemma prefix_trans {A} (a b c : list A) : prefix a b -> prefix b c -> prefix a c.
  Proof. intros (x & ->) (y & ->). exists (x ++ y)%list. symmetry. apply app_assoc. Qed.
  Lemma saved_prefix (es : list (Event F)) st f saved lost : run_events open_output_lists es st ->
    (on_disk (st f) ++ in_buffer (st f) = saved ++ lost)%list -> prefix saved (rows_of f es).
  Proof.
    intros H E. destruct (run_complete es f _ _ H) as (C & _). cbn [open_output_lists on_disk in_buffer app] in C. rewrite E in C. exists lost. symmetry. exact C.
  Qed.
  Lemma run_exists (es : list (Event F)) : forall st, exists st', run_events st es st'.
  Proof.
    induction es as [|e es IH]; intros st; [exists st; constructor|].
    assert (exists s1, step_event st e s1) as (s1 & H1).
    { destruct e as [f r|f]; eexists; [apply (step_write _ _ _ (in_buffer (st f)) [r]); reflexivity|apply step_flush]. }
    destruct (IH s1) as (s2 & H2). exists s2. econstructor; eauto.
  Qed.

  (** ** The document *)
  Lemma field_inv {A} key (d : Toml F -> Res A) t a : field key d t = Ok a -> exists l v, t = TTable l /\ given l key v /\ d v = Ok a.
  Proof.
    unfold field. destruct t as [| | | | |l]; try discriminate. destruct (lookup key l) as [v|] eqn:E; [|discriminate].
    intros H. exists l, v. split; [reflexivity|]. split; [apply lookup_some; exact E|exact H].
  Qed.
  Lemma de_string_inv (t : Toml F) s : de_string t = Ok s -> t = TString s.
  Proof. destruct t; cbn; intros H; try discriminate. injection H as ->. reflexivity. Qed.
  Lemma de_nats_inv (t : Toml F) l : de_vec de_usize t = Ok l -> t = TArray (map (fun k => TInt (Z.of_nat k)) l).
  Proof.
    destruct t as [| | | |v|]; try discriminate. cbn [de_vec]. intros H. apply mapM_ok in H. f_equal.
    induction H as [|x n v l Hx H IH]; [reflexivity|]. cbn [map]. f_equal; [|exact IH].
    destruct x; try discriminate. cbn in Hx. destruct (0 <=? z)%Z eqn:E; [|discriminate]. injection Hx as <-. rewrite Z2Nat.id by (apply Z.leb_le; exact E). reflexivity.
  Qed.
  Lemma de_vec_length {A} (d : Toml F -> Res A) t l : de_vec d t = Ok l -> exists v, t = TArray v /\ List.length v = List.length l.
  Proof.
    destruct t as [| | | |v|]; try discriminate. cbn [de_vec]. intros H. apply mapM_ok in H. exists v. split; [reflexivity|]. clear -H; induction H; cbn; congruence.
  Qed.
  Lemma named_input_inv {G} w (rg : Toml F -> Res G) bg t rng k name x n :
    named_input w rg bg t rng k = Ok ((name, x), n) ->
    exists inp, read_file (pg_parse w) rg bg t = Ok (name, inp) /\ input (mkFeatures (pg_cpr w) None) (pg_normal_ok w) inp rng k = Ok (x, n).
  Proof.
    unfold named_input. intros H. apply mbind_ok in H. destruct H as ((name' & inp) & k1 & H1 & H). apply mlift_ok in H1. destruct H1 as (H1 & ->).
    apply mbind_ok in H. destruct H as (x' & k2 & H2 & H). apply mret_ok in H. destruct H as (H & ->). injection H as -> ->. exists inp. auto.
  Qed.
  Lemma read_file_inv {G} parse (rg : Toml F -> Res G) bg t name inp : read_file parse rg bg t = Ok (name, inp) ->
    named t name /\ asks_for t (list_sum (firstn (List.length (pp_Z (in_particle inp))) (pp_N (in_particle inp)))).
  Proof.
    unfold read_file. intros H. apply bind_ok in H. destruct H as ((name' & o) & Ho & H). apply bind_ok in H. destruct H as (m & _ & H).
    apply bind_ok in H. destruct H as (p & Hp & H). apply bind_ok in H. destruct H as (g & _ & H). injection H as <- <-. cbn [in_particle].
    apply field_inv in Ho. destruct Ho as (l & v & -> & Gv & Ho). apply field_inv in Hp. destruct Hp as (l' & vp & E & Gp & Hp). injection E as <-.
    unfold read_options in Ho. apply bind_ok in Ho. destruct Ho as (nm & Hn & Ho). apply field_inv in Hn. destruct Hn as (lo & vn & -> & Gn & Hn). apply de_string_inv in Hn. subst vn.
    assert (nm = name') as -> by (repeat (apply bind_ok in Ho; let a := fresh "a" in let E := fresh "E" in destruct Ho as (a & E & Ho)); injection Ho as <- _; reflexivity).
    split; [exists l, lo; auto|].
    unfold read_particles in Hp. do 3 (apply bind_ok in Hp; destruct Hp as (? & _ & Hp)).
    apply bind_ok in Hp. destruct Hp as (N & HN & Hp). apply bind_ok in Hp. destruct Hp as (? & _ & Hp). apply bind_ok in Hp. destruct Hp as (Z & HZ & Hp).
    apply field_inv in HN. destruct HN as (lp & vN & -> & GN & HN). apply field_inv in HZ. destruct HZ as (lp' & vZ & E & GZ & HZ). injection E as <-.
    apply de_nats_inv in HN. subst vN. apply de_vec_length in HZ. destruct HZ as (Zs & -> & HL).
    repeat (apply bind_ok in Hp; let a := fresh "a" in let E := fresh "E" in destruct Hp as (a & E & Hp)). injection Hp as <-. cbn [pp_Z pp_N].
    exists l, lp, N, Zs. rewrite HL. repeat split; assumption.
  Qed.
  Lemma read_input_inv w g t rng k name ps mat o u n : read_input w g t rng k = Ok ((name, (ps, mat, o, u)), n) ->
    named t name /\ exists inp, asks_for t (list_sum (firstn (List.length (pp_Z (in_particle inp))) (pp_N (in_particle inp)))) /\
      input (mkFeatures (pg_cpr w) None) (pg_normal_ok w) inp rng k = Ok ((ps, mat, o, u), n).
  Proof.
    intros H. destruct g; cbn [read_input] in H; apply named_input_inv in H; destruct H as (inp & Hr & Hi);
      apply read_file_inv in Hr; destruct Hr as (Hn & Ha); (split; [exact Hn|exists inp; auto]).
  Qed.
End Main.
