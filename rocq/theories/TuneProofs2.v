(** Proofs about setting parameters of the subsystems of a DMP, continued: names, constructor, what has no effect. *)
From Coq Require Import String.
From Verif Require Import Base BaseLemmas DynModel DynSpec ParamModel FaModel TrajModel TrajProofs DmpModel DmpSpec DmpProofs DmpProofs14 TuneModel TuneSpec TuneProofs.
Open Scope string_scope.

Lemma spring_known s n v s' : spring_attr s n v = Ok s' -> In n spring_attrs.
Proof.
  destruct s. unfold spring_attr, spring_attrs, base_attrs. cbn [List.app].
  repeat (match goal with |- context [String.eqb n ?b] => destruct (String.eqb_spec n b) as [->|] end; [intros _; cbn; tauto|]).
  cbn [orb]. discriminate.
Qed.
Lemma sub_known s n v s' : sub_attr s n v = Ok s' -> In n (sub_attrs s) /\ sub_attrs s' = sub_attrs s.
Proof.
  destruct s as [[]|[]|[]|[]]; unfold sub_attr, sub_attrs, base_attrs; cbn [List.app];
  repeat (match goal with |- context [String.eqb n ?b] => destruct (String.eqb_spec n b) as [->|] end; [cbn [orb]; try (destruct v; try discriminate; intros H; injection H as <-; cbn; tauto); try discriminate|]);
  cbn [orb]; discriminate.
Qed.
Lemma set_spring_known ps s s' : set_attrs spring_attr s ps = (s', Ok tt) -> forall n, In n (map fst ps) -> In n spring_attrs.
Proof. apply (set_attrs_known spring_attr (fun _ n => In n spring_attrs)). intros. split; [now apply (spring_known s0 n v s'0)|trivial]. Qed.
Lemma set_sub_known ps s s' : set_attrs sub_attr s ps = (s', Ok tt) -> forall n, In n (map fst ps) -> In n (sub_attrs s).
Proof.
  apply (set_attrs_known sub_attr (fun s n => In n (sub_attrs s))). intros a n v b E. destruct (sub_known a n v b E) as [H1 H2].
  split; [exact H1|]. intros k. now rewrite H2.
Qed.
Lemma optional_known o ps o' : set_optional o (Some ps) = (o', Ok tt) -> exists s, o = Some s /\ forall n, In n (map fst ps) -> In n (sub_attrs s).
Proof.
  cbn. destruct o as [s|]; [|discriminate]. destruct (set_attrs sub_attr s ps) as [s' r] eqn:E. intros H. injection H as _ ->.
  exists s. split; [reflexivity|]. exact (set_sub_known ps s s' E).
Qed.
Lemma mem_in l n : mem l n = true -> In n l.
Proof. unfold mem. intros H. apply existsb_exists in H. destruct H as (k & H1 & H2). apply String.eqb_eq in H2. now subst. Qed.
Lemma unit_ok (r : res unit) : r = Ok tt \/ exists e, r = Err e.
Proof. destruct r as [[]|e]; eauto. Qed.
Lemma set_known m params m' : set_params_dyn_sys m params = (m', Ok tt) ->
  (forall n, In n (map fst params) -> In n (dmp_attrs m)) /\
  (forall ps, lookup params "spring_system" = Some ps -> forall n, In n (map fst ps) -> In n spring_attrs) /\
  (forall ps, lookup params "goal_system" = Some ps -> exists g, m_goal m = Some g /\ forall n, In n (map fst ps) -> In n (sub_attrs g)) /\
  (forall ps, lookup params "damping_system" = Some ps -> exists s, m_damping m = Some s /\ forall n, In n (map fst ps) -> In n (sub_attrs s)).
Proof.
  unfold set_params_dyn_sys. destruct (set_spring m params) as [m1 r1] eqn:E1. destruct (unit_ok r1) as [->|[e ->]]; [|discriminate].
  assert (H1 : m_goal m1 = m_goal m /\ m_damping m1 = m_damping m /\
               forall ps, lookup params "spring_system" = Some ps -> forall n, In n (map fst ps) -> In n spring_attrs).
  { unfold set_spring in E1. destruct (lookup params "spring_system") as [ps|].
    - destruct (set_attrs spring_attr (m_spring m) ps) as [sp r] eqn:E. injection E1 as <- ->. do 2 (split; [reflexivity|]).
      intros ps' H. injection H as <-. exact (set_spring_known _ _ _ E).
    - injection E1 as <-. do 2 (split; [reflexivity|]). discriminate. }
  destruct H1 as (Hg & Hd & H1). rewrite Hg, Hd.
  destruct (set_optional (m_goal m) (lookup params "goal_system")) as [go r2] eqn:E2. destruct (unit_ok r2) as [->|[e ->]]; [|discriminate].
  destruct (set_optional (m_damping m) (lookup params "damping_system")) as [da r3] eqn:E3. destruct (unit_ok r3) as [->|[e ->]]; [|discriminate].
  destruct (forallb _ params) eqn:E4; [|discriminate]. intros _. split.
  { intros n Hn. rewrite forallb_forall in E4. apply in_map_iff in Hn. destruct Hn as (p & <- & Hp). apply mem_in. exact (E4 p Hp). }
  split; [exact H1|]. split.
  - intros ps H. rewrite H in E2. exact (optional_known _ _ _ E2).
  - intros ps H. rewrite H in E3. exact (optional_known _ _ _ E3).
Qed.
(** the constructor, given these systems *)
Lemma set_constructor ty tau y0 attr fas kw m params : new_dmp ty tau y0 attr fas kw = Ok m ->
  fitting (length y0) (for_system params "spring_system") -> new_dmp ty tau y0 attr fas (kw_with kw (tuned m params)) = Ok (tuned m params).
Proof.
  unfold new_dmp. intros E F. set (sp := opt (k_transf kw) _) in E. cbn [kw_with k_transf k_alpha k_phase k_gating k_goal k_damping k_scaling k_amps opt].
  destruct (default_subs ty tau y0 attr sp) as [[[[go ga] ph] da]|] eqn:Ed; [|discriminate]. cbn [bind] in E. apply ok_inj in E.
  assert (Es : m_spring m = sp) by (subst m; reflexivity).
  assert (K : exists go' da', default_subs ty tau y0 attr (m_spring (tuned m params)) = Ok (go', ga, ph, da')).
  { cbn [tuned m_spring]. rewrite Es. clear Es. destruct ty as [| | |ns dmp]; cbn [default_subs] in Ed |- *.
    - apply ok_inj in Ed. injection Ed as <- <- <- <-. eauto.
    - destruct (for_gating _ _ _); [|discriminate]. cbn [bind] in *. apply ok_inj in Ed. injection Ed as <- <- <- <-. eauto.
    - destruct (for_gating _ _ _); [|discriminate]. cbn [bind] in *. apply ok_inj in Ed. injection Ed as <- <- <- <-. eauto.
    - destruct dmp; cbn [bind] in Ed |- *.
      + destruct (full (length y0) (d_damp sp)) as [l|] eqn:Ef; [|discriminate]. cbn [bind] in Ed.
        assert (Hf : exists l', full (length y0) (d_damp (spring_with sp (for_system params "spring_system"))) = Ok l').
        { unfold spring_with, new. cbn [d_damp]. destruct (lookup _ "damping_coefficient") as [v|] eqn:El; cbn [opt]; [|eauto].
          assert (P : par_ok v (length y0)). { pose proof (new_fit (length y0) _ "damping_coefficient" (PScal 0) F I) as H. unfold new in H. rewrite El in H. exact H. }
          destruct v as [r|w]; cbn; [eauto|]. cbn in P. unfold fit. rewrite P, Nat.eqb_refl. eauto. }
        destruct Hf as [l' ->]. cbn [bind]. apply ok_inj in Ed. injection Ed as <- <- <- <-. eauto.
      + apply ok_inj in Ed. injection Ed as <- <- <- <-. eauto. }
  destruct K as (go' & da' & ->). cbn [bind]. subst m. reflexivity.
Qed.
(** with a damping system the damping coefficient of the spring does not matter *)
Lemma unused_damping m v : m_damping m <> None -> par_ok v (m_dim m) -> touched m (tuned m [("spring_system", [("damping_coefficient", v)])]).
Proof.
  intros H P. exists (d_attr (m_spring m)), v, (m_goal m). split; [|split; [right; now split|destruct (m_goal m); [now left|reflexivity]]].
  unfold tuned. cbn. destruct m as [t n x0 y0 a f sl sp go ph ga da rq sc am ts]. cbn.
  assert (Hm : forall o : option sub, option_map (sub_with []) o = o) by (intros [s|]; cbn; [now rewrite sub_with_nil|reflexivity]). rewrite !Hm. reflexivity.
Qed.
Lemma same_systems m : with_systems m (m_spring m) (m_goal m) (m_damping m) = m.
Proof. now destruct m. Qed.
Lemma set_other m n ps : In n ["tau"; "x_init"; "y_attr"; "phase_system"; "gating_system"; "forcing_term_scaling"; "scaling_amplitudes"] ->
  set_params_dyn_sys m [(n, ps)] = (m, Ok tt).
Proof.
  intros H. unfold set_params_dyn_sys, set_spring. cbn [lookup].
  assert (E : (("spring_system" =? n) = false /\ ("goal_system" =? n) = false /\ ("damping_system" =? n) = false) /\ mem (dmp_attrs m) n = true).
  { repeat destruct H as [<-|H]; try destruct H; (split; [repeat split|reflexivity]). }
  destruct E as ((-> & -> & ->) & E). cbn [set_optional]. rewrite same_systems. cbn [forallb fst]. rewrite E. reflexivity.
Qed.
