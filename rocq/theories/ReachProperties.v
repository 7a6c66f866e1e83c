(** C113: step-by-step executions reach the goal from every state, also if the goal is changed on the way. *)
From Coq Require Import String Lia Lra.
From Verif Require Import Base BaseLemmas DynModel DynSpec ParamModel TrajModel DmpModel DmpSpec DmpSpec2 DmpExamples CppModel CppSpec CppExamples TaskModel DmpProofs5 DmpProofs14 DmpProofs16 IntModel PushSpec PushProofs PushProofs2 PushProperties ReachSpec ReachProofs ReachProofs2 ReachProofs3 ReachProofs4.
Open Scope R_scope.

(** All steps are possible from every state x (the gating of which is between 0 and its initial value if it is a sigmoid), and they end
    up at the goal at rest, with both integration methods, if they are short enough for spring, gating and goal system. *)
Theorem C113_reaches : forall predict_fn method m dt x i a, wf predict_fn m -> short_steps predict_fn m dt i a ->
  length x = dim_x m -> fades (m_gating m) dt (nth (3 * m_dim m + 1) x 0) ->
  reaches predict_fn method m dt x i (nth i (m_attr m) 0).
Proof.
  intros pf me m dt x i a W (Hi & Cr & Ad & Ht & Hd & Hu & B & Le) L Fa.
  exact (proj1 (reached_goal pf me m m dt x i a W Hi Cr Ad Ht Hd Hu B Fa Le L (touched_refl m))).
Qed.
Print Assumptions C113_reaches.

(** The goal may be changed on the way, as often as one likes, after any numbers of steps and to any goals of the right size: all
    changes and steps are possible, and the movement ends up at the last goal. *)
Theorem C113_new_goals : forall predict_fn method m dt x i a plan, sound predict_fn m -> ready m ->
  short_steps predict_fn m dt i a -> length x = dim_x m -> fades (m_gating m) dt (nth (3 * m_dim m + 1) x 0) ->
  Forall (fun p => length (snd p) = m_dim m) plan ->
  exists m' y, chase predict_fn method m dt x plan = Ok (m', y) /\ reaches predict_fn method m' dt y i (nth i (last_goal m plan) 0).
Proof.
  intros pf me m dt x i a plan S Rd H L Fa Fp.
  destruct (chased pf me dt i a plan m m x S Rd H Fa L (touched_refl m) Fp) as (m' & y & E & _ & R). now exists m', y.
Qed.
Print Assumptions C113_new_goals.

(** For DMPs of the types of Ijspeert 2002 and Kulvicius 2012, and the countdown type, after every history of training, new starts, goals,
    durations and parameters, and executions, this holds for all sufficiently short steps: from the state of integrate_start, and from
    every other state in which the gating is between 0 and 1. *)
Theorem C113_types : forall predict_fn train_fn method ty tau y0 attr fas kw m cs m' i, predicts predict_fn train_fn ->
  0 < tau -> length attr = length y0 -> full_kw (length y0) kw -> (forall s b, ty <> Sct23 s b) ->
  new_dmp ty tau y0 attr fas kw = Ok m -> sound predict_fn m ->
  allowed predict_fn train_fn m cs -> Forall forward cs -> apply_all predict_fn train_fn m cs = Ok m' -> ready m' ->
  (i < m_dim m')%nat -> 0 < par_val (opt (k_alpha kw) (PScal 20)) i -> bounded_force predict_fn m' i ->
  exists h, 0 < h /\ forall dt, 0 < dt <= h -> forall plan, Forall (fun p => length (snd p) = m_dim m') plan -> forall m0 x,
    (exists xd, m_start predict_fn m' None = Ok (m0, x, xd)) \/ (m0 = m' /\ length x = dim_x m' /\ 0 <= nth (3 * m_dim m' + 1) x 0 <= 1) ->
    exists m2 y, chase predict_fn method m0 dt x plan = Ok (m2, y) /\ reaches predict_fn method m2 dt y i (nth i (last_goal m' plan) 0).
Proof. intros pf tf me. exact (history_chased pf tf me). Qed.
Print Assumptions C113_types.

(** The forcing terms of RBFNs and LWRs are bounded for bounded phases. *)
Theorem C113_function_approximators : forall kinds m i,
  (forall f, nth_error (fas_of (pdmp_of m)) i = Some f -> is_trained f = true -> fa_portable (kinds i) f) -> bounded_force (py_predict exp kinds) m i.
Proof. exact portable_bounded. Qed.
Print Assumptions C113_function_approximators.

(** DMPs trained with demonstrations, with RBFNs and LWRs: for all sufficiently short steps, an execution ends up at the end of the
    demonstration in all dimensions, and at the last goal if the goal is changed on the way. *)
Theorem C113_demonstrations : forall kinds ns h lam method ty t fas kw,
  (forall i, kinds i <> KOther) -> (forall i, (0 < ns i)%nat) -> (forall i, 0 < h i < 1) -> (forall i, 0 < lam i) ->
  ty = Kulvicius \/ ty = Countdown -> plain_kw kw -> opt (k_scaling kw) NoScaling = NoScaling -> 0 < par_val (opt (k_alpha kw) (PScal 20)) 0 ->
  demo (tj_dim t) t -> 0 < last (tj_ts t) 0 -> hd 0 (tj_ts t) < last (tj_ts t) 0 ->
  (tj_dim t <= length fas)%nat -> Forall (fun f => is_trained f = false) fas ->
  let pf := py_predict exp kinds in let tf := trainer kinds ns h lam in
  exists m, from_traj pf tf ty t (Some fas) kw = Ok m /\ m_dim m = tj_dim t /\ m_attr m = last (mrows (tj_ys t)) [] /\
  exists s, 0 < s /\ forall dt, 0 < dt <= s -> forall plan, Forall (fun p => length (snd p) = tj_dim t) plan -> forall m0 x i, (i < tj_dim t)%nat ->
    (exists xd, m_start pf m None = Ok (m0, x, xd)) \/ (m0 = m /\ length x = dim_x m /\ 0 <= nth (3 * m_dim m + 1) x 0 <= 1) ->
    exists m2 y, chase pf method m0 dt x plan = Ok (m2, y) /\ reaches pf method m2 dt y i (nth i (last_goal m plan) 0).
Proof.
  intros kinds ns h lam me ty t fas kw Hk Hn Hh Hlam Hty Kw Ks Hd Dm Hl Hlt Hf Hu.
  exact (trained_chased kinds ns h lam Hk Hn Hh Hlam me ty t fas kw Hty Kw Ks Hd Dm Hl Hlt Hf Hu).
Qed.
Print Assumptions C113_demonstrations.

(** A DMP from 5 to 9 in 3 seconds with a forcing term, somewhere else, with goals 2 after 7 steps and 11 after 4 more *)
Definition q_pf : nat -> list (string * pval) -> R -> res R := fun _ _ ph => Ok (30 * sin (7 * ph)).
Definition q_fa : fa := Fa [("weights"%string, PArr (Arr [2%nat] [1; 2]))] (Some 1%nat) None.
Definition q_state : list R := [-40; 7; 0; 1; 1; 20].
Definition q_plan : list (nat * list R) := [(7%nat, [2]); (4%nat, [11])].
Lemma q_force m i : bounded_force q_pf m i.
Proof.
  intros B. exists 30. intros ph _. unfold pred_val. destruct (nth_error _ _) as [f|]; [|rewrite Rabs_R0; lra]. destruct (is_trained f); [|rewrite Rabs_R0; lra].
  unfold q_pf. rewrite Rabs_mult, (Rabs_right 30) by lra. pose proof (SIN_bound (7 * ph)). assert (Rabs (sin (7 * ph)) <= 1) by (apply Rabs_le; lra). lra.
Qed.
Lemma q_dmp : exists m m', predicts q_pf ex_tf /\ new_dmp Ijspeert 2 [5] [7] (Some [q_fa]) no_kw = Ok m /\ sound q_pf m /\
  allowed q_pf ex_tf m p_changes /\ Forall forward p_changes /\ apply_all q_pf ex_tf m p_changes = Ok m' /\ ready m' /\ sound q_pf m' /\ wf q_pf m' /\
  m_dim m' = 1%nat /\ m_attr m' = [9] /\ short_steps q_pf m' (1 / 10) 0 10 /\ forall g, fades (m_gating m') (1 / 10) g.
Proof.
  assert (Pr : predicts q_pf ex_tf) by (split; intros; unfold q_pf; eauto).
  destruct (new_dmp_ok q_pf Ijspeert 2 [5] [7] (Some [q_fa]) no_kw ltac:(lra) eq_refl) as (m & E & S & Sy & Pl & Ed & Et & _ & _ & Ef & Er & Es & _).
  { repeat split. } { exact I. } { split; [right; cbn; lia|]. intros; unfold q_pf; eauto. }
  assert (Ex : exists m', apply_all q_pf ex_tf m p_changes = Ok m' /\ m_req m' = false /\ m_scaling m' = NoScaling /\ m_tau m' = 3 /\ allowed q_pf ex_tf m p_changes /\
     m_attr m' = [9] /\ m_goal m' = None /\ phase_stays (m_phase m') (1 / 10) /\ forall g, fades (m_gating m') (1 / 10) g).
  { pose proof E as E'. cbn in E'. injection E' as <-. unfold p_changes. cbn [apply_all apply1 allowed allowed1]. unfold set_tau. cbn [m_tau].
    destruct (Req_EM_T 2 0); [lra|]. cbn. eexists. split; [reflexivity|]. cbn. repeat split; lra. }
  destruct Ex as (m' & E' & R' & S' & T' & A' & X1 & X2 & X3 & X4).
  assert (Fw : Forall forward p_changes) by (repeat constructor; cbn; lra).
  destruct (history_sound q_pf ex_tf Pr p_changes m m' S A' E') as (Sd & Dm & _).
  assert (Rd : ready m') by (split; [rewrite R', S'; intros [H|H]; discriminate|rewrite S'; discriminate]).
  destruct (critically_history q_pf ex_tf Ijspeert 2 [5] [7] (Some [q_fa]) no_kw m p_changes m' Pr ltac:(lra) eq_refl ltac:(now repeat split) ltac:(discriminate) E S A' Fw E') as (Pm & _ & C).
  rewrite Ed in Dm. cbn in Dm. specialize (C 0%nat ltac:(lia)). cbn [no_kw k_alpha opt par_val] in C. replace (20 / 2) with 10 in C by lra.
  exists m, m'. split; [exact Pr|]. split; [exact E|]. split; [exact S|]. split; [exact A'|]. split; [exact Fw|]. split; [exact E'|]. split; [exact Rd|]. split; [exact Sd|].
  split; [now apply sound_wf|]. split; [exact Dm|]. split; [exact X1|]. split; [|exact X4].
  split; [lia|]. split; [exact C|]. split; [exact X3|]. rewrite T'. split; [lra|]. split; [lra|]. split; [lra|]. split; [apply q_force|]. unfold leads. now rewrite X2.
Qed.
Example C113_case : exists m, wf q_pf m /\ short_steps q_pf m (1 / 10) 0 10 /\ length q_state = dim_x m /\
  fades (m_gating m) (1 / 10) (nth (3 * m_dim m + 1) q_state 0) /\ reaches q_pf Euler m (1 / 10) q_state 0 9.
Proof.
  destruct q_dmp as (_ & m & _ & _ & _ & _ & _ & _ & Rd & S & W & D & A & H & Fa). assert (L : length q_state = dim_x m) by (unfold dim_x; rewrite D; reflexivity).
  exists m. split; [exact W|]. split; [exact H|]. split; [exact L|]. split; [apply Fa|]. replace 9 with (nth 0 (m_attr m) 0) by now rewrite A.
  exact (C113_reaches q_pf Euler m (1 / 10) q_state 0 10 W H L (Fa _)).
Qed.
Example C113_new_goals_case : exists m m' y, sound q_pf m /\ ready m /\ short_steps q_pf m (1 / 10) 0 10 /\
  Forall (fun p => length (snd p) = m_dim m) q_plan /\ chase q_pf RungeKutta m (1 / 10) q_state q_plan = Ok (m', y) /\ reaches q_pf RungeKutta m' (1 / 10) y 0 11.
Proof.
  destruct q_dmp as (_ & m & Pr & _ & _ & _ & _ & _ & Rd & S & W & D & A & H & Fa). assert (L : length q_state = dim_x m) by (unfold dim_x; rewrite D; reflexivity).
  assert (Fp : Forall (fun p => length (snd p) = m_dim m) q_plan) by (rewrite D; repeat constructor).
  destruct (C113_new_goals q_pf RungeKutta m (1 / 10) q_state 0 10 q_plan S Rd H L (Fa _) Fp) as (m' & y & E & R). exists m, m', y.
  split; [exact S|]. split; [exact Rd|]. split; [exact H|]. split; [exact Fp|]. split; [exact E|exact R].
Qed.
Example C113_types_case : exists m m', predicts q_pf ex_tf /\ full_kw 1 no_kw /\ (forall s b, Ijspeert <> Sct23 s b) /\
  new_dmp Ijspeert 2 [5] [7] (Some [q_fa]) no_kw = Ok m /\ sound q_pf m /\ allowed q_pf ex_tf m p_changes /\ Forall forward p_changes /\
  apply_all q_pf ex_tf m p_changes = Ok m' /\ ready m' /\ (0 < m_dim m')%nat /\ bounded_force q_pf m' 0 /\ length q_state = dim_x m' /\
  0 <= nth (3 * m_dim m' + 1) q_state 0 <= 1 /\ Forall (fun p => length (snd p) = m_dim m') q_plan.
Proof.
  destruct q_dmp as (m & m' & Pr & E & S & A & F & E' & Rd & S' & W & D & _). exists m, m'. split; [exact Pr|]. split; [now repeat split|]. split; [discriminate|].
  split; [exact E|]. split; [exact S|]. split; [exact A|]. split; [exact F|]. split; [exact E'|]. split; [exact Rd|]. split; [lia|]. split; [apply q_force|].
  split; [unfold dim_x; rewrite D; reflexivity|]. rewrite D. split; [cbn; lra|repeat constructor].
Qed.
Example C113_function_approximators_case : exists m, new_dmp Ijspeert 2 [5] [7] (Some [ex_rbf]) no_kw = Ok m /\ m_fas m = Some [ex_rbf] /\
  is_trained ex_rbf = true /\ (forall f, nth_error (fas_of (pdmp_of m)) 0 = Some f -> is_trained f = true -> fa_portable KRbfn f) /\ bounded_force (py_predict exp (fun _ => KRbfn)) m 0.
Proof.
  eexists. split; [reflexivity|]. split; [reflexivity|]. split; [reflexivity|].
  match goal with |- ?A /\ _ => assert (H : A) end. { intros f Hf _. cbn in Hf. injection Hf as <-. exact ex_rbf_portable. }
  split; [exact H|]. apply (C113_function_approximators (fun _ => KRbfn)). exact H.
Qed.
Example C113_demonstrations_case : plain_kw no_kw /\ opt (k_scaling no_kw) NoScaling = NoScaling /\ 0 < par_val (opt (k_alpha no_kw) (PScal 20)) 0 /\
  demo (tj_dim ex_demo) ex_demo /\ hd 0 (tj_ts ex_demo) < last (tj_ts ex_demo) 0 /\ last (mrows (tj_ys ex_demo)) [] = [3] /\
  Forall (fun p => length (snd p) = tj_dim ex_demo) q_plan /\ (tj_dim ex_demo <= length [Fa [] None None])%nat /\ is_trained (Fa [] None None) = false.
Proof.
  split; [repeat split; now exists 20|]. split; [reflexivity|]. split; [cbn; lra|]. split; [exact ex_is_demo|]. split; [cbn; lra|]. split; [reflexivity|].
  split; [repeat constructor|]. split; [cbn; lia|reflexivity].
Qed.
