(** Proofs about improvement by updates: the optimizations of the demos, and counterexamples. *)
From Coq Require Import String Ascii NArith.
From Verif Require Import Base BaseLemmas DynModel SessionModel SessionSpec UpdatersModel UpdatersSpec UpdatersProofs UpdatersProofs2 UpdatersProofs3 UpdatersProofs4 UpdatersProofs5
  UpdatersExamples LoopModel LoopSpec LoopProofs LoopProofs2 LoopProofs3 LoopProofs4 LoopExamples EquivSpec EquivProofs EquivExamples
  OptModel OptSpec OptProofs OptProofs2 OptProofs3.
Open Scope R_scope.

Lemma distance_euclid p x : length x = length p -> distance p x = euclid p x.
Proof.
  intros L. unfold distance, euclid. rewrite norm_sumn, length_map2_gen, L, Nat.min_id. f_equal. apply sumn_ext. intros i Hi.
  rewrite (nth_map2_gen Rminus _ _ i 0 0 0) by lia. ring.
Qed.
Lemma norm_magnitude x : norm x = magnitude x.
Proof. unfold magnitude. rewrite norm_sumn. f_equal. apply sumn_ext. intros. ring. Qed.
Lemma distance_eval_is p x : length x = length p -> distance_eval p x = Ok (CVec [euclid p x]).
Proof. intros L. unfold distance_eval. rewrite vop_minus by exact L. cbn [bind]. change (norm (map2 Rminus x p)) with (distance p x). now rewrite distance_euclid. Qed.
Lemma regularized_eval_is p k x : length x = length p ->
  regularized_eval p k x = Ok (CVec [euclid p x + k * magnitude x; euclid p x; k * magnitude x]).
Proof.
  intros L. unfold regularized_eval. rewrite vop_minus by exact L. cbn [bind]. change (norm (map2 Rminus x p)) with (distance p x). now rewrite distance_euclid, norm_magnitude.
Qed.
Lemma convex_ext n f g : (forall x, length x = n -> f x = g x) -> convex n f -> convex n g.
Proof. intros H C x y t Lx Ly Ht. rewrite <- !H; trivial; [now apply C|now apply between_length]. Qed.
Lemma euclid_convex p : convex (length p) (euclid p).
Proof. apply (convex_ext _ (distance p)); [intros; now apply distance_euclid|apply distance_convex]. Qed.
Lemma euclid_magnitude_convex p k : 0 <= k -> convex (length p) (fun x => euclid p x + k * magnitude x).
Proof.
  intros Hk. apply (convex_ext _ (fun x => distance p x + k * norm x)); [|now apply regularized_convex].
  intros x L. now rewrite distance_euclid, norm_magnitude.
Qed.

(** samples of an optimization have the size of the mean *)
Lemma clip_sized s lo up m : mat_wf s -> clip_samples s lo up = Ok m -> mat_wf m /\ mcols m = mcols s.
Proof.
  intros W H. assert (m = Mat (mcols s) (map (fun row => map2 (fun j x => clip1 (bound_at lo j) (bound_at up j) x) (seq 0 (mcols s)) row) (mrows s))) as ->.
  { unfold clip_samples in H. destruct lo, up; try discriminate H;
    match type of H with (if ?b then _ else _) = _ => destruct b; [injection H as <-; reflexivity|destruct (Nat.eqb _ _); discriminate] end. }
  split; [|reflexivity]. unfold mat_wf in *. cbn [mrows mcols]. rewrite Forall_forall in *. intros r Hr. apply in_map_iff in Hr.
  destruct Hr as (row & <- & Hrow). rewrite map2_length, seq_length, (W _ Hrow). apply Nat.min_id.
Qed.
Lemma generated_sized {CV S} rng ev argsort u roll evr n : sized rng -> forall o d o' m,
  o_gen CV S (bbo_oracles rng ev argsort u roll evr) o d n = (o', Ok m) -> mat_wf m /\ mcols m = length (d_mean d).
Proof.
  intros Hs o d o' m E. cbn [bbo_oracles o_gen] in E. destruct (rng o (d_mean d) (d_covar d) n) as [o1 [m1|]] eqn:E1; [|discriminate].
  cbn [bind] in E. destruct (Hs _ _ _ _ _ _ E1) as [W Hc]. unfold generate_samples in E. destruct (d_bounds d) as [[lo up]|].
  - apply (f_equal snd) in E. cbn [snd] in E. destruct (clip_sized _ _ _ _ W E) as [W1 H1]. split; [exact W1|congruence].
  - injection E as _ <-. auto.
Qed.

(** optimizations without covariance adaptation succeed when the cost function returns a cost for every vector of the right size *)
Section Success.
Variables (CV P S : Type) (category : oval CV P -> ext) (rng : S -> list R -> mat -> Z -> S * res mat) (ev : S -> list R -> S * res cost)
  (argsort : list R -> list nat) (u : updater) (roll : S -> list R -> S * res CV) (evr : S -> CV -> list R -> S * res cost) (n : Z) (N : nat).
Hypothesis Hsort : argsort_ok argsort.
Hypothesis Hs : sized rng.
Hypothesis Hrng : forall s mean C, exists s' m, rng s mean C n = (s', Ok m) /\ nrows m = Z.to_nat n.
Hypothesis Hn : (1 <= n)%Z.
Hypothesis Hev : forall s x, length x = N -> exists s' c, ev s x = (s', Ok c) /\ c <> CVec [].
Hypothesis Hu : forall a, u <> UAdapt a.
Hypothesis Had : admissible (u_method u) (u_elit u) (Z.to_nat n).
Let orc := bbo_oracles rng ev argsort u roll evr.

Lemma evals_ok : forall xs, (forall x, In x xs -> length x = N) -> forall s : st CV P S, exists s' cs,
  mapMM CV P S (m_eval CV P S orc) xs s = (s', Ok cs) /\ length cs = length xs /\ ~ In (CVec []) cs.
Proof.
  induction xs as [|x xs IH]; intros L s; [exists s, []; repeat split; intros []|]. cbn [mapMM].
  destruct (Hev (st_out s) x (L x (or_introl eq_refl))) as (o & c & E & Hc).
  assert (E1 : m_eval CV P S orc x s = (St o (st_trace s ++ [EEval x c])%list (st_db s), Ok c)).
  { unfold m_eval, call_out. cbn [orc bbo_oracles o_eval]. now rewrite E. }
  rewrite (bind_ok _ _ _ _ _ E1). destruct (IH (fun y Hy => L y (or_intror Hy)) (St o (st_trace s ++ [EEval x c])%list (st_db s))) as (s2 & cs & E2 & L2 & H2).
  rewrite (bind_ok _ _ _ _ _ E2). exists s2, (c :: cs). split; [reflexivity|]. split; [cbn; lia|]. intros [H|H]; [congruence|now apply H2].
Qed.
Lemma opt_update_ok i d (s : st CV P S) : length (d_mean d) = N -> d_bounds d = None ->
  exists s' d', opt_update CV P S category orc n i d s = (s', Ok d') /\ length (d_mean d') = N /\ d_bounds d' = None.
Proof.
  intros L B. unfold opt_update. destruct (Hev (st_out s) (d_mean d) L) as (o & c & E & Hc).
  assert (E1 : m_eval CV P S orc (d_mean d) s = (St o (st_trace s ++ [EEval (d_mean d) c])%list (st_db s), Ok c)).
  { unfold m_eval, call_out. cbn [orc bbo_oracles o_eval]. now rewrite E. }
  rewrite (bind_ok _ _ _ _ _ E1). clear E1. set (s1 := St o _ _). destruct (Hrng (st_out s1) (d_mean d) (d_covar d)) as (o2 & m & Em & Rm).
  destruct (Hs _ _ _ _ _ _ Em) as [W Hc2].
  assert (E2 : m_gen CV P S orc d n s1 = (St o2 (st_trace s1 ++ [EGen d n m])%list (st_db s1), Ok m)).
  { unfold m_gen, call_out. cbn [orc bbo_oracles o_gen]. rewrite Em. cbn [bind]. unfold generate_samples. now rewrite B. }
  rewrite (bind_ok _ _ _ _ _ E2). clear E2. set (s2 := St o2 _ _).
  destruct (evals_ok (mrows m)) with (s := s2) as (s3 & cs & E3 & L3 & H3).
  { intros x Hx. unfold mat_wf in W. rewrite Forall_forall in W. rewrite (W x Hx). congruence. }
  rewrite (bind_ok _ _ _ _ _ E3). clear E3.
  assert (Lc : length cs = Z.to_nat n) by (rewrite L3; exact Rm).
  destruct (update_mean_decay_ok argsort Hsort u d m cs Hu) as (d' & w & E4).
  { intros ->. cbn in Lc. lia. }
  { exact H3. }
  { now rewrite Lc. }
  { unfold nrows. now symmetry. }
  assert (E5 : m_upd CV P S orc d m cs s3 = (St (st_out s3) (st_trace s3 ++ [EUpd d m cs d' w])%list (st_db s3), Ok (d', w))).
  { unfold m_upd, call_out. cbn [orc bbo_oracles o_upd]. rewrite E4. reflexivity. }
  rewrite (bind_ok _ _ _ _ _ E5). clear E5. erewrite bind_ok by reflexivity. erewrite bind_ok by reflexivity.
  eexists. exists d'. split; [reflexivity|]. split.
  - destruct (update_mean_formula argsort Hsort u d m cs d' w E4) as (_ & _ & Hl & _). congruence.
  - destruct (update_inv argsort u d m cs d' w E4) as (_ & _ & Hb). congruence.
Qed.
Lemma opt_loop_ok : forall k i d (s : st CV P S), length (d_mean d) = N -> d_bounds d = None ->
  exists s' d', opt_loop CV P S category orc n i k d s = (s', Ok d').
Proof.
  induction k as [|k IH]; intros i d s L B; cbn [opt_loop]; [exists s, d; reflexivity|].
  destruct (opt_update_ok (Z.of_nat i) d s L B) as (s1 & d1 & E & L1 & B1). rewrite (bind_ok _ _ _ _ _ E). now apply IH.
Qed.
Lemma run_ok w0 r cf up d0 k (s : st CV P S) : length (d_mean d0) = N -> d_bounds d0 = None ->
  exists s' d', run_optimization CV P S category orc w0 r cf up d0 k n s = (s', Ok d').
Proof. intros L B. unfold run_optimization. now apply opt_loop_ok. Qed.
End Success.
