(** Specification vocabulary: how errors of forcing terms show in movements. *)
From Coq Require Import String.
From Coquelicot Require Import Coquelicot.
From Verif Require Import Base DynModel DynSpec ParamModel TrajModel DmpModel DmpSpec CppModel.
Open Scope string_scope.
Open Scope R_scope.

(** dimension i is critically damped with rate a: without forcing term tau z' = - a^2 (y - target) - 2 a z. The default damping
    coefficient 20 has the rate 10. Steps of at most b are short enough. *)
Definition damped (m : dmp) (i : nat) (a b : R) : Prop :=
  let M := par_val (d_mass (m_spring m)) i in
  m_damping m = None /\ par_val (d_damp (m_spring m)) i = 2 * M * a /\ par_val (d_spring (m_spring m)) i = M * (a * a) /\
  0 < a /\ 0 < m_tau m /\ a * b <= m_tau m.
(** times do not decrease, in steps of at most b *)
Definition steps_upto (b : R) (ts : list R) : Prop := forall k, (S k < length ts)%nat -> 0 <= nth (S k) ts 0 - nth k ts 0 <= b.

(** the derivatives of dimension i of a demonstration are consistent up to p (velocities) and q (accelerations), and it starts with
    a velocity of at most v *)
Definition nearly_euler (t : traj) (i : nat) (p q v : R) : Prop :=
  let ts := tj_ts t in
  let y := at_ (mrows (tj_ys t)) in let yd := at_ (mrows (tj_yds t)) in let ydd := at_ (mrows (tj_ydds t)) in
  0 <= p /\ 0 <= q /\ Rabs (yd 0%nat i) <= v /\
  forall k, (S k < length ts)%nat ->
    let dt := nth (S k) ts 0 - nth k ts 0 in
    Rabs (y (S k) i - y k i - dt * yd k i) <= dt * p /\ Rabs (yd (S k) i - yd k i - dt * ydd k i) <= dt * q.

(** the predictions of the i-th function approximator miss the targets by at most e *)
Definition residual (predict_fn : nat -> list (string * pval) -> R -> res R) (m : dmp) (phases : list R) (tg : list (list R)) (i : nat) (e : R) : Prop :=
  forall k, (k < length phases)%nat -> Rabs (pred_val predict_fn m (nth k phases 0) i - at_ tg k i) <= e.

(** dimension i of a demonstration is sampled from a curve whose second and third derivatives are at most A and J *)
Definition sampled_from (t : traj) (i : nat) (A J : R) : Prop :=
  exists Y Yd Ydd Yddd : R -> R,
    (forall k, (k < length (tj_ts t))%nat -> let s := nth k (tj_ts t) 0 in
       at_ (mrows (tj_ys t)) k i = Y s /\ at_ (mrows (tj_yds t)) k i = Yd s /\ at_ (mrows (tj_ydds t)) k i = Ydd s) /\
    forall s, nth 0 (tj_ts t) 0 <= s <= last (tj_ts t) 0 ->
      is_derive Y s (Yd s) /\ is_derive Yd s (Ydd s) /\ is_derive Ydd s (Yddd s) /\ Rabs (Ydd s) <= A /\ Rabs (Yddd s) <= J.

(** entries differ by at most e *)
Definition within (e : R) (x y : list R) : Prop := Forall2 (fun a b => Rabs (a - b) <= e) x y.
(** the trained function approximator of dimension i has at most n basis functions *)
Definition basis_upto (m : dmp) (i n : nat) : Prop :=
  forall fs f k c, m_fas m = Some fs -> nth_error fs i = Some f -> is_trained f = true ->
    lookup (f_model f) "centers" = Some (PArr (Arr (k :: (1%nat :: nil)) c)) -> (k <= n)%nat.
(** a change of weights moves the prediction of an RBFN by at most the sum over its basis functions; LWRs are averages of lines *)
Definition gain (k : fa_kind) (n : nat) : R := match k with KRbfn => INR n | _ => 2 end.
