(** C106: what an update of the distribution does to the costs.

    All three updaters move the mean to a weighted mean of the samples, with weights that are not larger for
    samples of higher cost. *)
From Coq Require Import String Ascii NArith.
From Verif Require Import Base BaseLemmas DynModel SessionModel SessionSpec UpdatersModel UpdatersSpec UpdatersProofs UpdatersProofs2 UpdatersProofs3 UpdatersProofs4 UpdatersProofs5
  UpdatersExamples LoopModel LoopSpec LoopExamples EquivSpec EquivExamples OptModel OptSpec OptProofs OptProofs2 OptProofs3 OptProofs4.
Open Scope R_scope.
Lemma two_min : lmin [0; 1] = 0. Proof. cbn. unfold Rmin. destruct (Rle_dec _ _); lra. Qed.
Lemma two_max : lmax [0; 1] = 1. Proof. cbn. unfold Rmax. destruct (Rle_dec _ _); lra. Qed.

(** The weighted mean of the costs is at most their mean ... *)
Theorem C106_weighted : forall argsort costs cs m e w, argsort_ok argsort -> costs <> [] -> totals costs cs -> prefers_low m e ->
  costs_to_weights argsort costs m e = Ok w -> weighted w cs <= average cs.
Proof. intros argsort costs cs m e w H. exact (weighted_le argsort H costs cs m e w). Qed.
Print Assumptions C106_weighted.
(** ... strictly so for PI-BB with positive eliteness, when two costs differ; *)
Theorem C106_strict : forall argsort costs cs m e w i j, argsort_ok argsort -> totals costs cs -> ~ rank_method m -> 0 < elit_R e ->
  costs_to_weights argsort costs m e = Ok w -> (i < length cs)%nat -> (j < length cs)%nat -> nth i cs 0 < nth j cs 0 -> weighted w cs < average cs.
Proof. intros argsort costs cs m e w i j H. exact (weighted_lt argsort H costs cs m e w i j). Qed.
Print Assumptions C106_strict.
(** and it exceeds the best cost by at most (n-1)/(h e) times the range of the costs. *)
Theorem C106_best : forall argsort costs cs m e w best worst, totals costs cs -> ~ rank_method m -> 0 < elit_R e ->
  costs_to_weights argsort costs m e = Ok w -> (best < length cs)%nat -> (worst < length cs)%nat ->
  (forall i, (i < length cs)%nat -> nth best cs 0 <= nth i cs 0 <= nth worst cs 0) ->
  weighted w cs <= nth best cs 0 + (nth worst cs 0 - nth best cs 0) * (INR (length cs) - 1) / (elit_R e * exp 1).
Proof. exact pibb_bound. Qed.
Print Assumptions C106_best.
(** With a negative eliteness, PI-BB prefers high costs. *)
Theorem C106_negative_eliteness_refuted : exists costs cs w, totals costs cs /\ costs_to_weights my_argsort costs "PI-BB" (EReal (-1)) = Ok w /\
  average cs < weighted w cs.
Proof.
  exists [CScalar 0; CScalar 1], [0; 1]. assert (T : totals [CScalar 0; CScalar 1] [0; 1]) by (repeat constructor).
  eexists. split; [exact T|]. split.
  - rewrite (not_rank_pibb my_argsort _ _ "PI-BB" _ ltac:(intros [H|H]; discriminate) T ltac:(discriminate)). reflexivity.
  - cbn [map elit_R]. rewrite <- Ropp_involutive with (r := 1) at 1. change (- - (1)) with (- -1). unfold average, weighted, pibb_w, pibb_weight. cbn [length sumn nth map rsum fold_right].
    rewrite two_min, two_max. replace (- -1 * (0 - 0) / (1 - 0)) with 0 by field. replace (- -1 * (1 - 0) / (1 - 0)) with 1 by field. rewrite exp_0.
    pose proof (exp_ineq1 1 ltac:(lra)) as X. set (E := exp 1) in *. clearbody E. cbn [INR].
    apply (Rmult_lt_reg_r (2 * (1 + (E + 0)))); [lra|]. match goal with |- ?a < ?b => replace a with (1 + E) by (field; lra); replace b with (2 * E) by (field; lra) end. lra.
Qed.
Print Assumptions C106_negative_eliteness_refuted.

(** An update of a distribution, for costs that are a convex function of the samples: the cost of the new mean is at most the
    weighted mean of the costs of the samples, and so at most their mean. *)
Theorem C106_convex : forall argsort u d samples costs d' w f, argsort_ok argsort -> mat_wf samples -> convex (mcols samples) f ->
  prefers_low (u_method u) (u_elit u) -> costs_by f samples costs -> update_distribution argsort u d samples costs = Ok (d', w) ->
  f (d_mean d') <= weighted w (map f (mrows samples)) <= average (map f (mrows samples)).
Proof. intros argsort u d s c d' w f H. exact (update_convex argsort H u d s c d' w f). Qed.
Print Assumptions C106_convex.
(** When only the level sets are convex, the new mean costs at most as much as the worst sample with a weight ... *)
Theorem C106_level : forall argsort u d samples costs d' w f b, argsort_ok argsort -> mat_wf samples -> convex_levels (mcols samples) f ->
  update_distribution argsort u d samples costs = Ok (d', w) ->
  (forall i, (i < nrows samples)%nat -> 0 < nth i w 0 -> f (nth i (mrows samples) []) <= b) -> f (d_mean d') <= b.
Proof. intros argsort u d s c d' w f b H. exact (level argsort H u d s c d' w f b). Qed.
Print Assumptions C106_level.
(** ... so with CEM and CMA-ES, at most as much as any sample outside the elite. *)
Theorem C106_elite : forall argsort u d samples costs d' w f j, argsort_ok argsort -> mat_wf samples -> convex_levels (mcols samples) f ->
  rank_method (u_method u) -> costs_by f samples costs -> update_distribution argsort u d samples costs = Ok (d', w) ->
  (j < nrows samples)%nat -> nth j w 0 = 0 -> f (d_mean d') <= f (nth j (mrows samples) []).
Proof.
  intros argsort u d s c d' w f j H W C Rm T E Hj Hw. apply (level argsort H u d s c d' w f _ W C E). intros i Hi Hp.
  destruct (Rle_dec (f (nth i (mrows s) [])) (f (nth j (mrows s) []))) as [L|L]; [exact L|]. exfalso.
  assert (G : forall k, (k < nrows s)%nat -> nth k (map f (mrows s)) 0 = f (nth k (mrows s) [])).
  { intros k Hk. rewrite (nth_indep _ 0 (f [])) by (rewrite map_length; exact Hk). apply map_nth. }
  pose proof (rank_monotone argsort H c (map f (mrows s)) (u_method u) (u_elit u) w j i Rm T (update_weights argsort u d s c d' w E)) as M.
  rewrite !map_length, !G in M by trivial. specialize (M Hj Hi ltac:(lra)). lra.
Qed.
Print Assumptions C106_elite.
Example C106_convex_case : exists d' w, mat_wf (Mat 2 [[1; 0]; [3; 4]]) /\ convex 2 (euclid [0; 0]) /\ prefers_low "PI-BB" (EInt 10) /\
  costs_by (euclid [0; 0]) (Mat 2 [[1; 0]; [3; 4]]) [CVec [1]; CVec [5]] /\
  update_distribution my_argsort (UMean "PI-BB" (EInt 10)) x_dist (Mat 2 [[1; 0]; [3; 4]]) [CVec [1]; CVec [5]] = Ok (d', w).
Proof.
  destruct (update_mean_decay_ok my_argsort my_argsort_ok (UMean "PI-BB" (EInt 10)) x_dist (Mat 2 [[1; 0]; [3; 4]]) [CVec [1]; CVec [5]]) as (d' & w & E).
  1,2: discriminate. 1: intros [H|[H|[]]]; discriminate. 1: split; discriminate. 1: reflexivity.
  exists d', w. split; [repeat constructor|]. split; [exact (euclid_convex [0; 0])|]. split; [right; cbn; lra|]. split; [|exact E].
  unfold costs_by, euclid. cbn [map mrows]. constructor; [|constructor; [|constructor]]; right; exists []; apply f_equal, (f_equal2 cons); trivial; cbn [length sumn nth].
  - symmetry. replace ((0 + (1 - 0) ^ 2 + (0 - 0) ^ 2)) with (1 * 1) by ring. apply sqrt_square. lra.
  - symmetry. replace ((0 + (3 - 0) ^ 2 + (4 - 0) ^ 2)) with (5 * 5) by ring. apply sqrt_square. lra.
Qed.
(** The cost of the mean itself may become larger, also for a convex cost: all samples may be worse than the mean. *)
Theorem C106_worse_mean_refuted : exists u d samples costs d' w f, mat_wf samples /\ convex (mcols samples) f /\ prefers_low (u_method u) (u_elit u) /\
  costs_by f samples costs /\ update_distribution my_argsort u d samples costs = Ok (d', w) /\ f (d_mean d) < f (d_mean d').
Proof.
  exists (UMean "PI-BB" (EInt 10)), (Dist [0] (Mat 1 [[1]]) None), (Mat 1 [[1]]), [CScalar 1].
  destruct (update_mean_decay_ok my_argsort my_argsort_ok (UMean "PI-BB" (EInt 10)) (Dist [0] (Mat 1 [[1]]) None) (Mat 1 [[1]]) [CScalar 1]) as (d' & w & E).
  1,2: discriminate. 1: intros [H|[]]; discriminate. 1: split; discriminate. 1: reflexivity.
  exists d', w, (euclid [0]). split; [repeat constructor|]. split; [exact (euclid_convex [0])|]. split; [right; cbn; lra|].
  assert (A : forall x, euclid [0] [x] = Rabs x).
  { intros x. unfold euclid. cbn [length sumn nth]. replace (0 + (x - 0) ^ 2) with (Rsqr x) by (unfold Rsqr; ring). apply sqrt_Rsqr_abs. }
  split; [unfold costs_by; cbn [map mrows]; rewrite A, Rabs_R1; repeat constructor|]. split; [exact E|].
  destruct (update_mean_formula my_argsort my_argsort_ok _ _ _ _ _ _ E) as ((L & _ & Sw) & _ & Ld & F). cbn in L, Ld.
  destruct w as [|w0 [|? ?]]; try discriminate. destruct (d_mean d') as [|m0 [|? ?]] eqn:Em; try discriminate. specialize (F 0%nat ltac:(cbn; lia)).
  cbn in F, Sw. unfold mget in F. cbn in F. rewrite Rplus_0_r in Sw. subst w0. replace m0 with 1 by lra.
  cbn [d_mean]. rewrite !A, Rabs_R1, Rabs_R0. lra.
Qed.
Print Assumptions C106_worse_mean_refuted.
(** For other costs, the new mean may be worse than every sample. *)
Theorem C106_not_convex_refuted : exists u d samples costs d' w f, mat_wf samples /\ prefers_low (u_method u) (u_elit u) /\
  costs_by f samples costs /\ update_distribution my_argsort u d samples costs = Ok (d', w) /\
  forall i, (i < nrows samples)%nat -> f (nth i (mrows samples) []) < f (d_mean d').
Proof.
  exists (UMean "PI-BB" (EInt 10)), (Dist [0] (Mat 1 [[1]]) None), (Mat 1 [[-1]; [1]]), [CScalar 0; CScalar 0].
  destruct (update_mean_decay_ok my_argsort my_argsort_ok (UMean "PI-BB" (EInt 10)) (Dist [0] (Mat 1 [[1]]) None) (Mat 1 [[-1]; [1]]) [CScalar 0; CScalar 0]) as (d' & w & E).
  1,2: discriminate. 1: intros [H|[H|[]]]; discriminate. 1: split; discriminate. 1: reflexivity.
  exists d', w, (fun x => 1 - nth 0 x 0 * nth 0 x 0). split; [repeat constructor|]. split; [right; cbn; lra|].
  assert (T : totals [CScalar 0; CScalar 0] [0; 0]) by repeat constructor.
  split. { unfold costs_by. cbn [map mrows nth]. replace (1 - -1 * -1) with 0 by ring. replace (1 - 1 * 1) with 0 by ring. exact T. }
  split; [exact E|]. pose proof (update_weights my_argsort _ _ _ _ _ _ E) as Ew. cbn [u_method u_elit] in Ew.
  rewrite (not_rank_pibb my_argsort _ _ "PI-BB" _ ltac:(intros [H|H]; discriminate) T ltac:(discriminate)) in Ew. assert (Ew0 : forall (a b : list R), Ok a = Ok b -> a = b) by (intros a b Q; now injection Q). apply Ew0 in Ew.
  destruct (update_mean_formula my_argsort my_argsort_ok _ _ _ _ _ _ E) as ((L & _ & Sw) & _ & Ld & F). cbn in L, Ld.
  destruct w as [|w0 [|w1 [|? ?]]]; try discriminate. destruct (d_mean d') as [|m0 [|? ?]] eqn:Em; try discriminate. specialize (F 0%nat ltac:(cbn; lia)).
  cbn [map] in Ew. assert (w0 = w1) by (inversion Ew; congruence). cbn in F, Sw. unfold mget in F. cbn in F. cbn [nth]. replace m0 with 0 by lra.
  intros i Hi. cbn in Hi. destruct i as [|[|i]]; [| |lia]; cbn [mrows nth]; lra.
Qed.
Print Assumptions C106_not_convex_refuted.

(** A whole optimization with run_optimization. If the cost is a convex function f of the sample, then the updates that were made
    can be asked for in the session, each starts from the distribution the previous one made, the evaluation costs are those of f
    at the means, and every update makes a distribution whose mean costs at most as much as the samples on average. *)
Theorem C106_run : forall argsort CV P S category load (orc : oracles CV S) u f N n w0 r cf up d0 k (s s' : st CV P S) d',
  argsort_ok argsort ->
  (forall o d m cs o' r, o_upd _ _ orc o d m cs = (o', Ok r) -> update_distribution argsort u d m cs = Ok r) ->
  (forall o d o' m, o_gen _ _ orc o d n = (o', Ok m) -> mat_wf m /\ mcols m = length (d_mean d)) ->
  (forall o x o' c, length x = N -> o_eval _ _ orc o x = (o', Ok c) -> has_total c (f x)) ->
  prefers_low (u_method u) (u_elit u) -> convex N f -> st_trace s = [] -> length (d_mean d0) = N ->
  run_optimization CV P S category orc w0 r cf up d0 k n s = (s', Ok d') ->
  exists us, length us = k /\ chained u_dist u_new d0 us d' /\
    (forall i a, nth_error us i = Some a -> opt_stored load (st_db s') i a) /\
    (forall a, In a us -> has_total (u_mean_cost a) (f (d_mean (u_dist a))) /\ improves f a).
Proof.
  intros argsort CV P S category load orc u f N n w0 r cf up d0 k s s' d' H Hu Hg He Pl C T L E.
  exact (run_improves argsort H CV P S category load orc u f N n Hu Hg Pl C w0 r cf up d0 k s s' d' He T L E).
Qed.
Print Assumptions C106_run.
(** The evaluation cost of an update is thus at most the mean cost of the samples of the update before. *)
Theorem C106_evaluations : forall argsort CV P S category load (orc : oracles CV S) u f N n w0 r cf up d0 k (s s' : st CV P S) d',
  argsort_ok argsort ->
  (forall o d m cs o' r, o_upd _ _ orc o d m cs = (o', Ok r) -> update_distribution argsort u d m cs = Ok r) ->
  (forall o d o' m, o_gen _ _ orc o d n = (o', Ok m) -> mat_wf m /\ mcols m = length (d_mean d)) ->
  (forall o x o' c, length x = N -> o_eval _ _ orc o x = (o', Ok c) -> has_total c (f x)) ->
  prefers_low (u_method u) (u_elit u) -> convex N f -> st_trace s = [] -> length (d_mean d0) = N ->
  run_optimization CV P S category orc w0 r cf up d0 k n s = (s', Ok d') ->
  forall i, (i + 1 < k)%nat -> exists costs rs c rc, stored load (st_db s') "costs" i INone (OCosts costs) /\ totals costs rs /\
    stored load (st_db s') "eval_cost" (i + 1) INone (OCost c) /\ has_total c rc /\ rc <= average rs.
Proof.
  intros argsort CV P S category load orc u f N n w0 r cf up d0 k s s' d' H Hu Hg He Pl C T L E i Hi.
  destruct (C106_run argsort CV P S category load orc u f N n w0 r cf up d0 k s s' d' H Hu Hg He Pl C T L E) as (us & Lk & Ch & St & Im).
  destruct (nth_error us i) as [a|] eqn:Ea; [|apply nth_error_None in Ea; lia].
  destruct (nth_error us (i + 1)) as [b|] eqn:Eb; [|apply nth_error_None in Eb; lia].
  destruct (Im a (nth_error_In _ _ Ea)) as (_ & Ta & Ia). destruct (Im b (nth_error_In _ _ Eb)) as (Hb & _).
  destruct (St i a Ea) as (_ & _ & Sa & _). destruct (St _ b Eb) as (_ & _ & _ & _ & _ & _ & Sb).
  rewrite Nat.add_1_r in Eb. rewrite (chained_next u_dist u_new us d0 d' i a b Ch Ea Eb) in Hb.
  eexists _, _, _, _. split; [exact Sa|]. split; [exact Ta|]. split; [exact Sb|]. split; [exact Hb|]. lra.
Qed.
Print Assumptions C106_evaluations.
(** The same with run_optimization_task, for a cost that is a convex function of the parameters whose rollout is evaluated. *)
Theorem C106_run_task : forall argsort CV P S category load (orc : oracles CV S) u f N n w0 r tk solver up d0 k (s s' : st CV P S) d',
  argsort_ok argsort ->
  (forall o d m cs o' r, o_upd _ _ orc o d m cs = (o', Ok r) -> update_distribution argsort u d m cs = Ok r) ->
  (forall o d o' m, o_gen _ _ orc o d n = (o', Ok m) -> mat_wf m /\ mcols m = length (d_mean d)) ->
  (forall o x o' v o1 o1' c, length x = N -> o_roll _ _ orc o x = (o', Ok v) -> o_evalr _ _ orc o1 v x = (o1', Ok c) -> has_total c (f x)) ->
  prefers_low (u_method u) (u_elit u) -> convex N f -> st_trace s = [] -> length (d_mean d0) = N ->
  run_optimization_task CV P S category orc w0 r tk solver up d0 k n s = (s', Ok d') ->
  exists ts, length ts = k /\ chained t_before t_after d0 ts d' /\
    (forall i t, nth_error ts i = Some t -> task_stored load (st_db s') i t) /\
    (forall t, In t ts -> has_total (u_mean_cost (t_upd t)) (f (d_mean (t_before t))) /\ improves f (t_upd t)).
Proof.
  intros argsort CV P S category load orc u f N n w0 r tk solver up d0 k s s' d' H Hu Hg He Pl C T L E.
  exact (run_task_improves argsort H CV P S category load orc u f N n Hu Hg Pl C w0 r tk solver up d0 k s s' d' He T L E).
Qed.
Print Assumptions C106_run_task.

(** The cost functions of the demos are convex: the distance to a point, and a sum of this distance and the size of the sample. *)
Theorem C106_demo_costs : forall p k x,
  (length x = length p -> distance_eval p x = Ok (CVec [euclid p x])) /\ convex (length p) (euclid p) /\
  (length x = length p -> regularized_eval p k x = Ok (CVec [euclid p x + k * magnitude x; euclid p x; k * magnitude x])) /\
  (0 <= k -> convex (length p) (fun x => euclid p x + k * magnitude x)).
Proof.
  intros p k x. split; [apply distance_eval_is|]. split; [apply euclid_convex|]. split; [apply regularized_eval_is|apply euclid_magnitude_convex].
Qed.
Print Assumptions C106_demo_costs.
(** So in demo_bbo.py, with any random generator that draws vectors of the right size, the optimization succeeds and the distance
    to the point of every mean after the first is at most the mean distance of the samples of the update before. *)
Theorem C106_demo : forall argsort P S category load rng u p n w0 r cf up d0 k (s : st unit P S),
  argsort_ok argsort -> sized rng -> (forall s mean C, exists s' m, rng s mean C n = (s', Ok m) /\ nrows m = Z.to_nat n) -> (1 <= n)%Z ->
  (exists h, 0 <= h /\ (u = UMean "PI-BB" (EReal h) \/ exists dc, u = UDecay "PI-BB" (EReal h) dc)) ->
  st_trace s = [] -> length (d_mean d0) = length p -> d_bounds d0 = None ->
  exists s' d', run_optimization unit P S category
      (bbo_oracles rng (fun o x => (o, distance_eval p x)) argsort u (fun o _ => (o, Err Unmodelled)) (fun o _ _ => (o, Err Unmodelled)))
      w0 r cf up d0 k n s = (s', Ok d') /\
    exists us, length us = k /\ chained u_dist u_new d0 us d' /\
      (forall i a, nth_error us i = Some a -> opt_stored load (st_db s') i a) /\
      (forall a, In a us -> has_total (u_mean_cost a) (euclid p (d_mean (u_dist a))) /\ improves (euclid p) a).
Proof.
  intros argsort P S category load rng u p n w0 r cf up d0 k s H Hs Hr Hn (h & Hh & Hu) T L B.
  set (orc := bbo_oracles rng (fun o x => (o, distance_eval p x)) argsort u (fun o _ => (o, Err Unmodelled)) (fun o _ _ => (o, Err Unmodelled))).
  destruct (run_ok unit P S category rng (fun o x => (o, distance_eval p x)) argsort u (fun o _ => (o, Err Unmodelled)) (fun o _ _ => (o, Err Unmodelled)) n (length p) H Hs Hr Hn)
    with (w0 := w0) (r := r) (cf := cf) (up := up) (d0 := d0) (k := k) (s := s) as (s' & d' & E).
  - intros o x Lx. exists o, (CVec [euclid p x]). split; [now rewrite distance_eval_is|discriminate].
  - intros a. destruct Hu as [->|(dc & ->)]; discriminate.
  - destruct Hu as [->|(dc & ->)]; split; discriminate.
  - exact L.
  - exact B.
  - exists s', d'. split; [exact E|].
    destruct (C106_run argsort unit P S category load orc u (euclid p) (length p) n w0 r cf up d0 k s s' d' H) as (us & Lk & Ch & St & Im).
    + intros o d m cs o' q Q. cbn [orc bbo_oracles o_upd] in Q. now injection Q as _ Q.
    + apply generated_sized, Hs.
    + intros o x o' c Lx Q. cbn [orc bbo_oracles o_eval] in Q. rewrite distance_eval_is in Q by exact Lx. injection Q as _ <-. right. exists []. reflexivity.
    + destruct Hu as [->|(dc & ->)]; right; exact Hh.
    + apply euclid_convex.
    + exact T.
    + exact L.
    + exact E.
    + exists us. split; [exact Lk|]. split; [exact Ch|]. split; [exact St|]. exact Im.
Qed.
Print Assumptions C106_demo.
Example C106_demo_case : sized z_rng /\ (forall s mean C, exists s' m, z_rng s mean C 20 = (s', Ok m) /\ nrows m = Z.to_nat 20) /\
  length (d_mean x_dist) = length [2; 2] /\ d_bounds x_dist = None /\ st_trace x_st = [].
Proof.
  split; [exact z_sized|]. split; [|repeat split]. intros s mean C. unfold z_rng. eexists _, _. split; [reflexivity|]. unfold nrows. cbn [mrows]. now rewrite map_length, seq_length.
Qed.

(** Exploration that decays with a factor below one can move the mean only so far, in all updates together: if the samples are
    within K standard deviations, at most K / (1 - factor) standard deviations of the first distribution. *)
Theorem C106_reach : forall argsort m e factor j K hist d d', argsort_ok argsort -> 0 <= factor < 1 -> 0 <= K ->
  mat_wf (d_covar d) -> (j < nrows (d_covar d))%nat -> (j < mcols (d_covar d))%nat ->
  explores argsort (UDecay m e factor) j K d hist -> update_history argsort (UDecay m e factor) d hist = Ok d' ->
  Rabs (nth j (d_mean d') 0 - nth j (d_mean d) 0) <= K * sqrt (mget (d_covar d) j j) / (1 - factor).
Proof.
  intros argsort m e dc j K hist d d' H Hd HK W Hr Hc X E.
  assert (Hh : has j (d_covar d)). { split; [exact Hr|]. unfold mat_wf in W. rewrite Forall_forall in W. rewrite W; [exact Hc|]. now apply nth_In. }
  pose proof (reach argsort H m e dc j K Hd HK hist d d' Hh X E) as B. eapply Rle_trans; [exact B|].
  pose proof (sqrt_pos (mget (d_covar d) j j)) as Ps. set (sd := sqrt _) in *. unfold Rdiv. apply Rmult_le_compat_r; [apply Rlt_le, Rinv_0_lt_compat; lra|].
  assert (0 <= dc ^ length hist) by (apply pow_le; lra). assert (0 <= K * sd) by nra. nra.
Qed.
Print Assumptions C106_reach.
Example C106_reach_case : exists d', let u := UDecay "PI-BB" (EInt 10) (4 / 5) in let hist := [(Mat 2 [[2; 2]; [1; 3]], [CScalar 1; CScalar 2])] in
  explores my_argsort u 0 1 x_dist hist /\ update_history my_argsort u x_dist hist = Ok d'.
Proof.
  destruct (update_mean_decay_ok my_argsort my_argsort_ok (UDecay "PI-BB" (EInt 10) (4 / 5)) x_dist (Mat 2 [[2; 2]; [1; 3]]) [CScalar 1; CScalar 2]) as (d' & w & E).
  1,2: discriminate. 1: intros [H|[H|[]]]; discriminate. 1: split; discriminate. 1: reflexivity.
  exists d'. cbv zeta. split.
  - cbn [explores]. split; [cbn; lia|]. split; [|intros; exact I]. intros i Hi. unfold mget. cbn [x_dist d_covar d_mean mrows nth]. rewrite sqrt_1, Rmult_1_l.
    cbn in Hi. destruct i as [|[|i]]; [| |lia]; cbn [mrows nth]; apply Rabs_le; lra.
  - cbn [update_history]. rewrite E. reflexivity.
Qed.
