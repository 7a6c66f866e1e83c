(** C112: a movement which is disturbed during its execution returns to the undisturbed one. *)
From Coq Require Import String Lia Lra.
From Verif Require Import Base BaseLemmas DynModel DynSpec ParamModel TrajModel DmpModel DmpSpec DmpSpec2 DmpExamples DmpProofs5 DmpProofs14 DmpProofs16 IntModel IntProofs10 PushSpec PushProofs PushProofs2.
Open Scope R_scope.

(** After j steps the position and velocity are changed, by any amount. All later steps are possible if they were without the change;
    goal, phase, gating and damping are those without the change; and k steps later the differences of position and velocity have
    exactly these values. *)
Theorem C112_formula : forall predict_fn method m dt x0 j m1 x x' k m2 y i a, wf predict_fn m -> (i < m_dim m)%nat -> critically m i a ->
  steps predict_fn method m dt x0 j = Ok (m1, x) -> pushed m x x' -> steps predict_fn method m1 dt x k = Ok (m2, y) ->
  let h := dt / m_tau m in let r := decay method (a * h) in let w := dvel m i x x' + a * dpos i x x' in
  exists m2' y', steps predict_fn method m1 dt x' k = Ok (m2', y') /\ pushed m y y' /\
    dpos i y y' = r ^ k * dpos i x x' + INR k * h * gain method (a * h) * r ^ pred k * w /\
    dvel m i y y' = r ^ k * w - a * dpos i y y'.
Proof.
  intros pf me m dt x0 j m1 x x' k m2 y i a W Hi Cr E0 P E h r w.
  destruct (push_formula pf me m dt x0 j m1 x x' k m2 y i a W Hi Cr E0 P E) as (m2' & y' & E' & Py & U & V).
  exists m2', y'. split; [exact E'|]. split; [exact Py|]. split; [exact U|]. unfold r, h, w. rewrite <- V. ring.
Qed.
Print Assumptions C112_formula.

(** They become as small as one likes, with both methods, if the steps are shorter than 2 tau / a: with the default damping
    coefficient, a fifth of the duration of the movement. *)
Theorem C112_forgotten : forall predict_fn method m dt x0 j m1 x x' i a, wf predict_fn m -> (i < m_dim m)%nat -> critically m i a ->
  0 < a * dt / m_tau m < 2 -> steps predict_fn method m dt x0 j = Ok (m1, x) -> pushed m x x' ->
  forall eps, 0 < eps -> exists K, forall k m2 y, (K <= k)%nat -> steps predict_fn method m1 dt x k = Ok (m2, y) ->
    exists m2' y', steps predict_fn method m1 dt x' k = Ok (m2', y') /\ pushed m y y' /\
      Rabs (dpos i y y') <= eps /\ Rabs (dvel m i y y') <= eps.
Proof. exact forgotten. Qed.
Print Assumptions C112_forgotten.

(** In particular for DMPs of the types of Ijspeert 2002 and Kulvicius 2012, and the countdown type, after every history of training,
    new starts, goals, durations and parameters, and executions: integrate_start and all steps succeed, and pushes are forgotten. *)
Theorem C112_types : forall predict_fn train_fn method ty tau y0 attr fas kw m cs m' dt j i, predicts predict_fn train_fn ->
  0 < tau -> length attr = length y0 -> full_kw (length y0) kw -> (forall s b, ty <> Sct23 s b) ->
  new_dmp ty tau y0 attr fas kw = Ok m -> sound predict_fn m ->
  allowed predict_fn train_fn m cs -> Forall forward cs -> apply_all predict_fn train_fn m cs = Ok m' -> ready m' ->
  let d := par_val (opt (k_alpha kw) (PScal 20)) i in (i < m_dim m')%nat -> 0 < d -> 0 < dt -> d * dt < 4 * m_tau m' ->
  forall m0 x0 xd0, m_start predict_fn m' None = Ok (m0, x0, xd0) ->
  exists m1 x, steps predict_fn method m0 dt x0 j = Ok (m1, x) /\
    forall x', pushed m' x x' -> forall eps, 0 < eps -> exists K, forall k, (K <= k)%nat ->
      exists m2 y m2' y', steps predict_fn method m1 dt x k = Ok (m2, y) /\ steps predict_fn method m1 dt x' k = Ok (m2', y') /\
        pushed m' y y' /\ Rabs (dpos i y y') <= eps /\ Rabs (dvel m' i y y') <= eps.
Proof. intros pf tf me. exact (history_forgotten pf tf me). Qed.
Print Assumptions C112_types.

(** With longer Euler steps there are pushes of every size which never become smaller. *)
Theorem C112_long_steps_refuted : forall predict_fn m dt m1 x0 j x k m2 y i a d, wf predict_fn m -> (i < m_dim m)%nat -> critically m i a ->
  2 <= a * dt / m_tau m -> steps predict_fn Euler m dt x0 j = Ok (m1, x) -> length x = dim_x m -> steps predict_fn Euler m1 dt x k = Ok (m2, y) ->
  exists x' m2' y', pushed m x x' /\ dpos i x x' = d /\ steps predict_fn Euler m1 dt x' k = Ok (m2', y') /\ Rabs d <= Rabs (dpos i y y').
Proof. exact remembered. Qed.
Print Assumptions C112_long_steps_refuted.

(** A DMP from 5 to 9 in 3 seconds, pushed from 5 back to 4 *)
Definition p_changes : list change := [XTau 3; XAttr [9]].
Definition p_state : list R := [5; 0; 0; 1; 1; 20].
Definition p_pushed : list R := [4; -3; 0; 1; 1; 20].
Lemma p_dmp : exists m m', predicts ex_pf ex_tf /\ new_dmp Ijspeert 2 [5] [7] (Some [ex_fa]) no_kw = Ok m /\ sound ex_pf m /\
  allowed ex_pf ex_tf m p_changes /\ Forall forward p_changes /\ apply_all ex_pf ex_tf m p_changes = Ok m' /\ ready m' /\
  m_dim m' = 1%nat /\ m_tau m' = 3 /\ wf ex_pf m' /\ critically m' 0 10 /\ plain m'.
Proof.
  destruct ex_new as (m & E & S & Sy & Pl & Ed & Ef & Er & Es & _).
  assert (Pr : predicts ex_pf ex_tf) by (split; intros; unfold ex_pf; eauto).
  assert (Ex : exists m', apply_all ex_pf ex_tf m p_changes = Ok m' /\ m_req m' = false /\ m_scaling m' = NoScaling /\ m_tau m' = 3 /\ allowed ex_pf ex_tf m p_changes).
  { pose proof E as E'. cbn in E'. injection E' as <-. unfold p_changes. cbn [apply_all apply1 allowed allowed1]. unfold set_tau. cbn [m_tau].
    destruct (Req_EM_T 2 0); [lra|]. cbn. eexists. split; [reflexivity|]. repeat split; lra. }
  destruct Ex as (m' & E' & R' & S' & T' & A').
  assert (Fw : Forall forward p_changes) by (repeat constructor; cbn; lra).
  destruct (history_sound ex_pf ex_tf Pr p_changes m m' S A' E') as (Sd & Dm & _).
  assert (Rd : ready m') by (split; [rewrite R', S'; intros [H|H]; discriminate|rewrite S'; discriminate]).
  destruct (critically_history ex_pf ex_tf Ijspeert 2 [5] [7] (Some [ex_fa]) no_kw m p_changes m' Pr ltac:(lra) eq_refl ltac:(now repeat split) ltac:(discriminate) E S A' Fw E') as (Pm & _ & C).
  rewrite Ed in Dm. specialize (C 0%nat ltac:(lia)). cbn [no_kw k_alpha opt par_val] in C. replace (20 / 2) with 10 in C by lra.
  exists m, m'. spl; trivial. now apply sound_wf.
Qed.
Example C112_case : exists m m1 m2 y, let dt := 1 / 10 in wf ex_pf m /\ (0 < m_dim m)%nat /\ critically m 0 10 /\ 0 < 10 * dt / m_tau m < 2 /\
  steps ex_pf RungeKutta m dt p_state 0 = Ok (m1, p_state) /\ pushed m p_state p_pushed /\ steps ex_pf RungeKutta m1 dt p_state 7 = Ok (m2, y) /\
  dpos 0 p_state p_pushed = -1 /\ dvel m 0 p_state p_pushed = -3.
Proof.
  destruct p_dmp as (_ & m & _ & _ & _ & _ & _ & _ & _ & D & T & W & C & P). assert (L : length p_state = dim_x m) by (unfold dim_x; rewrite D; reflexivity).
  destruct (steps_plain ex_pf RungeKutta (1 / 10) 7 m m p_state W P (touched_refl m) L) as (m2 & y & E & _ & _).
  exists m, m, m2, y. cbv zeta. split; [exact W|]. split; [lia|]. split; [exact C|]. split; [rewrite T; lra|]. split; [reflexivity|]. split.
  - split; [exact L|]. split; [unfold dim_x; rewrite D; reflexivity|]. rewrite D. intros [|[|j]] Hj; try lia. reflexivity.
  - split; [exact E|]. unfold dvel, dpos. rewrite D. cbn. split; lra.
Qed.
Example C112_types_case : exists m m' m0 x0 xd0, predicts ex_pf ex_tf /\ full_kw 1 no_kw /\ (forall s b, Ijspeert <> Sct23 s b) /\
  new_dmp Ijspeert 2 [5] [7] (Some [ex_fa]) no_kw = Ok m /\ sound ex_pf m /\ allowed ex_pf ex_tf m p_changes /\ Forall forward p_changes /\
  apply_all ex_pf ex_tf m p_changes = Ok m' /\ ready m' /\ (0 < m_dim m')%nat /\ 20 * (1 / 10) < 4 * m_tau m' /\
  m_start ex_pf m' None = Ok (m0, x0, xd0) /\ pushed m' p_state p_pushed.
Proof.
  destruct p_dmp as (m & m' & Pr & E & S & A & F & E' & Rd & D & T & W & C & P).
  assert (Ex : exists r, m_start ex_pf m' None = Ok r).
  { destruct (integrate_history ex_pf ex_tf Ijspeert 2 [5] [7] (Some [ex_fa]) no_kw m p_changes m' Pr ltac:(lra) ltac:(now repeat split) E S A F E' Rd RungeKutta [0; 1] ltac:(discriminate)) as (m2 & xs & xds & Ei).
    unfold m_integrate in Ei. destruct (m_start ex_pf m' None) as [r|]; [eauto|discriminate]. }
  destruct Ex as ([[m0 x0] xd0] & Es). exists m, m', m0, x0, xd0. split; [exact Pr|]. split; [now repeat split|]. split; [discriminate|]. split; [exact E|]. split; [exact S|].
  split; [exact A|]. split; [exact F|]. split; [exact E'|]. split; [exact Rd|]. split; [lia|]. split; [rewrite T; lra|]. split; [exact Es|].
  split; [unfold dim_x; rewrite D; reflexivity|]. split; [unfold dim_x; rewrite D; reflexivity|]. rewrite D. intros [|[|j]] Hj; try lia. reflexivity.
Qed.
Example C112_long_case : exists m y m2, wf ex_pf m /\ critically m 0 10 /\ 2 <= 10 * (7 / 10) / m_tau m /\ length p_state = dim_x m /\
  steps ex_pf Euler m (7 / 10) p_state 9 = Ok (m2, y).
Proof.
  destruct p_dmp as (_ & m & _ & _ & _ & _ & _ & _ & _ & D & T & W & C & P). assert (L : length p_state = dim_x m) by (unfold dim_x; rewrite D; reflexivity).
  destruct (steps_plain ex_pf Euler (7 / 10) 9 m m p_state W P (touched_refl m) L) as (m2 & y & E & _ & _).
  exists m, y, m2. spl; trivial. rewrite T. lra.
Qed.
