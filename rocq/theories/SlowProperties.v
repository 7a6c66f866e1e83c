(** C110: the speed of a demonstration does not matter: at another speed, training gives the same parameters and the same movement at
    that speed. *)
From Coq Require Import String.
From Verif Require Import Base BaseLemmas ParamModel FaModel TrajModel DmpModel DmpSpec DmpExamples CppModel CppSpec TaskModel AffineSpec AffineProofs4 SlowSpec SlowProofs.
Open Scope R_scope.

(** A demonstration that is c times slower gives a DMP with c times the tau, the same parameters of function approximators, and, for
    all times, the same positions at c times the times, with velocities divided by c and accelerations by c^2. *)
Theorem C110_speed : forall kinds ns h lam c n ty t t' fas fas' kw,
  (forall i, kinds i <> KOther) -> (forall i, (0 < ns i)%nat) -> (forall i, 0 < h i < 1) -> (forall i, 0 < lam i) ->
  0 < c -> ty = Kulvicius \/ ty = Countdown -> plain_kw kw -> opt (k_scaling kw) NoScaling = NoScaling ->
  slowed c n t t' -> 0 < last (tj_ts t) 0 -> hd 0 (tj_ts t) < last (tj_ts t) 0 ->
  (n <= length fas)%nat -> Forall (fun f => is_trained f = false) fas -> (n <= length fas')%nat -> Forall (fun f => is_trained f = false) fas' ->
  let pf := py_predict exp kinds in let tf := trainer kinds ns h lam in
  exists m m', from_traj pf tf ty t (Some fas) kw = Ok m /\ from_traj pf tf ty t' (Some fas') kw = Ok m' /\ m_tau m' = c * m_tau m /\
    (forall fs fs', m_fas m = Some fs -> m_fas m' = Some fs' -> forall i f f', (i < n)%nat -> nth_error fs i = Some f -> nth_error fs' i = Some f' -> f_model f' = f_model f) /\
    forall ts, ts <> [] -> exists q q', movement pf m ts = Ok q /\ movement pf m' (map (Rmult c) ts) = Ok q' /\ tj_ts q = ts /\ slowed c n q q'.
Proof.
  intros kinds ns h lam c n ty t t' fas fas' kw H1 H2 H3 H4 H5 H6 H7 H8 H9 H10 H11 H12 H13 H14 H15 pf tf. now apply slow_learned.
Qed.
Print Assumptions C110_speed.
(** y = t (t - 1) / 2 at a third of the speed *)
Definition s_demo : traj :=
  Traj [0; 3; 6; 9] (Some 3) 1 (Mat 1 [[0]; [0]; [1]; [3]]) (Mat 1 [[0]; [1 / 3]; [2 / 3]; [1]]) (Mat 1 [[1 / 9]; [1 / 9]; [1 / 9]; [1 / 9]]) None.
Example C110_case : slowed 3 1 ex_demo s_demo /\ 0 < last (tj_ts ex_demo) 0 /\ hd 0 (tj_ts ex_demo) < last (tj_ts ex_demo) 0 /\ plain_kw no_kw /\ opt (k_scaling no_kw) NoScaling = NoScaling.
Proof.
  split; [|split; [cbn; lra|split; [cbn; lra|split; [|reflexivity]]]].
  - split; [exact ex_is_demo|]. split; [repeat split; repeat constructor|]. split; [cbn; repeat (apply (f_equal2 cons); [lra|]); reflexivity|].
    intros k i Hk Hi. cbn in Hk. destruct i as [|i]; [|lia]. do 4 (destruct k as [|k]; [unfold at_; cbn; lra|]). lia.
  - do 5 (split; [reflexivity|]). now exists 20.
Qed.

(** The time at which a demonstration starts does matter: tau is its last time, and not its duration. *)
Theorem C110_late : forall kinds ns h lam s n ty t t' fas fas' kw,
  (forall i, kinds i <> KOther) -> (forall i, (0 < ns i)%nat) -> (forall i, 0 < h i < 1) -> (forall i, 0 < lam i) ->
  0 < s -> ty = Kulvicius \/ ty = Countdown -> plain_kw kw -> opt (k_scaling kw) NoScaling = NoScaling ->
  later s n t t' -> hd 0 (tj_ts t) = 0 -> 0 < last (tj_ts t) 0 ->
  (n <= length fas)%nat -> Forall (fun f => is_trained f = false) fas -> (n <= length fas')%nat -> Forall (fun f => is_trained f = false) fas' ->
  let pf := py_predict exp kinds in let tf := trainer kinds ns h lam in
  exists m m', from_traj pf tf ty t (Some fas) kw = Ok m /\ from_traj pf tf ty t' (Some fas') kw = Ok m' /\
    m_tau m = last (tj_ts t) 0 - hd 0 (tj_ts t) /\ m_tau m' = last (tj_ts t') 0 - hd 0 (tj_ts t') + s.
Proof.
  intros kinds ns h lam s n ty t t' fas fas' kw Hk Hn Hh Hlam Hs Hty Kw Ksc (Dm & Dm' & Et & _) H0 Hl F1 F2 F3 F4 pf tf.
  assert (Dn : tj_dim t = n) by apply Dm. assert (Dn' : tj_dim t' = n) by apply Dm'.
  assert (Hne : tj_ts t <> []) by (intros Z; rewrite Z in Hl; cbn in Hl; lra).
  assert (El : last (tj_ts t') 0 = s + last (tj_ts t) 0).
  { rewrite Et. clear - Hne. induction (tj_ts t) as [|x [|y l] IH]; [congruence|reflexivity|]. cbn [map] in *. change (last (s + x :: s + y :: map (Rplus s) l)%list 0) with (last (s + y :: map (Rplus s) l)%list 0).
    rewrite IH by discriminate. reflexivity. }
  assert (Eh : hd 0 (tj_ts t') = s) by (rewrite Et; destruct (tj_ts t); [congruence|]; cbn in *; lra).
  destruct (trained_facts kinds ns h lam Hk Hn Hh Hlam ty t fas kw Hty Kw Ksc) as (m & Em & _ & _ & F); trivial; try (rewrite Dn; trivial); try lra.
  destruct (trained_facts kinds ns h lam Hk Hn Hh Hlam ty t' fas' kw Hty Kw Ksc) as (m' & Em' & _ & _ & F'); trivial; try (rewrite Dn'; trivial); try lra.
  exists m, m'. split; [exact Em|]. split; [exact Em'|]. destruct F as (_ & _ & -> & _). destruct F' as (_ & _ & -> & _). rewrite El, Eh, H0. split; lra.
Qed.
Print Assumptions C110_late.
Definition l_demo : traj :=
  Traj [5; 6; 7; 8] (Some 1) 1 (Mat 1 [[0]; [0]; [1]; [3]]) (Mat 1 [[0]; [1]; [2]; [3]]) (Mat 1 [[1]; [1]; [1]; [1]]) None.
Example C110_late_case : later 5 1 ex_demo l_demo /\ hd 0 (tj_ts ex_demo) = 0 /\ 0 < last (tj_ts ex_demo) 0 /\ last (tj_ts l_demo) 0 - hd 0 (tj_ts l_demo) = 3.
Proof.
  split; [|cbn; split; [reflexivity|split; lra]].
  split; [exact ex_is_demo|]. split; [repeat split; repeat constructor|]. split; [cbn; repeat (apply (f_equal2 cons); [lra|]); reflexivity|]. now repeat split.
Qed.
