(** Model of demos/python/bbo_of_dmps/with_schedules/force_field_simulator.py (perform_rollout) and of the
    solver in demo_bbo_of_dmps_with_gains.py which calls it. *)
From Coq Require Import String.
From Verif Require Import Base DynModel ParamModel FaModel TrajModel DmpModel SchedModel.
Open Scope R_scope.

(** the desired movement at one time step: position, velocity, acceleration, and the row of
    "schedules" *)
Record wish := Wish { q_y : list R; q_yd : list R; q_ydd : list R; q_gain : list R }.
(** one row of the tables of the rollout r (l.40-43) *)
Record frow := Frow { u_t : R; u_des : wish; u_y : list R; u_yd : list R; u_ydd : list R; u_field : R }.

(** l.69-73: the force at a time. np.sqrt of a negative number is nan; with w = 0 the quotient is minus
    infinity, whose exponential is 0, or nan. *)
Definition field (strength max_time time : R) : res R :=
  if Rlt_dec (0.05 * max_time) 0 then Err NonFinite else
  let w := sqrt (0.05 * max_time) in
  if Req_EM_T (w * w) 0 then (if Req_EM_T (time - max_time) 0 then Err NonFinite else Ok (strength * 0))
  else Ok (strength * exp (-0.5 * (time - max_time)^2 / (w * w))).
(** l.58-66, 74: the acceleration in one dimension, from the position and velocity before *)
Definition accelerate (y yd : R) (d : wish) (f : R) (i : nat) : R :=
  let y_err := y - nth i (q_y d) 0 in
  let yd_err := yd - nth i (q_yd d) 0 in
  nth i (q_ydd d) 0 - nth i (q_gain d) 0 * y_err - sqrt (nth i (q_gain d) 0) * yd_err + f.
(** the truth that np.sqrt gives nan *)
Definition negative (l : list R) : bool := existsb (fun g => if Rlt_dec g 0 then true else false) l.

Section Sim.
(** the DMP: states between time steps, l.45-46 and 53-56 *)
Variable S : Type.
Variable dim : nat.
Variable start : res (S * wish).
Variable step : R -> S -> res (S * wish).

(** l.58-78, from the position and velocity before *)
Definition control (dt strength max_time time : R) (y yd : list R) (d : wish) : res frow :=
  if negative (q_gain d) then Err NonFinite else
  let* f := field strength max_time time in
  let ydd := map (fun i => accelerate (nth i y 0) (nth i yd 0) d f i) (seq 0 dim) in
  let yd' := map (fun i => nth i yd 0 + dt * nth i ydd 0) (seq 0 dim) in
  let y' := map (fun i => nth i y 0 + dt * nth i yd' 0) (seq 0 dim) in
  Ok (Frow time d y' yd' ydd f).
(** l.51-78 for the remaining times *)
Fixpoint field_loop (dt strength max_time : R) (s : S) (y yd : list R) (ts : list R) : res (list frow) :=
  match ts with
  | [] => Ok []
  | t :: ts' =>
    let* p := step dt s in
    let* r := control dt strength max_time t y yd (snd p) in
    let* rs := field_loop dt strength max_time (fst p) (u_y r) (u_yd r) ts' in
    Ok (r :: rs)
  end.
(** l.37-87. [n] is n_time_steps. *)
Definition field_rollout (T : R) (n : Z) (strength max_time : R) : res (list frow) :=
  let* ts := linspace0 T n in
  let* dt := nth_res ts 1 in
  let* p := start in
  let d := snd p in
  let* rows := field_loop dt strength max_time (fst p) (q_y d) (q_yd d) (tl ts) in
  Ok (Frow (hd 0 ts) d (q_y d) (q_yd d) (q_ydd d) 0 :: rows).
End Sim.

Section Dmps.
Variable predict_fn : nat -> list (string * pval) -> R -> res R.
Variable sched_fn : nat -> list (string * pval) -> R -> res R.

(** r["schedules"][tt, :] = sch (l.49, 65): a vector with one value per dimension or one value for all
    of them; a table only if it has one row *)
Definition spread (n : nat) (s : input) : res (list R) :=
  let row l := if Nat.eqb (length l) n then Ok l else match l with [v] => Ok (repeat v n) | _ => Err ValueError end in
  match s with
  | In1 l => row l
  | In2 m => match mrows m with [l] => row l | _ => Err ValueError end
  end.
Definition wish_of (m : dmp) (x xd : list R) (s : input) : res wish :=
  let* rows := states_as_rows m [x] [xd] in
  match rows with
  | [(y, yd, ydd)] => let* g := spread (m_dim m) s in Ok (Wish y yd ydd g)
  | _ => Err Unmodelled
  end.
(** l.45-49 *)
Definition field_start (w : wdmp) : res ((wdmp * list R) * wish) :=
  let* p := start_sched predict_fn sched_fn w None in
  let '(w', x, xd, s) := p in
  let* d := wish_of (w_dmp w') x xd s in Ok ((w', x), d).
(** l.53-56, 65 *)
Definition field_step (dt : R) (q : wdmp * list R) : res ((wdmp * list R) * wish) :=
  let '(w, x) := q in
  let* p := step_sched predict_fn sched_fn w dt x in
  let '(x', xd, s) := p in
  let* d := wish_of (w_dmp w) x' xd s in Ok ((w, x'), d).
Definition perform_field_rollout (w : wdmp) (T : R) (n : Z) (strength max_time : R) : res (list frow) :=
  field_rollout _ (m_dim (w_dmp w)) (field_start w) field_step T n strength max_time.

(** demo_bbo_of_dmps_with_gains.py:118-153: the table of variables that are relevant for the costs.
    [strength] is -20 or random. The time of the maximal force is half the duration of the DMP. *)
Definition field_row (r : frow) : list R :=
  (u_t r :: u_y r ++ u_yd r ++ u_ydd r ++ q_gain (u_des r) ++ q_y (u_des r) ++ q_yd (u_des r) ++ q_ydd (u_des r))%list.
Definition gains_cost_vars (w : wdmp) (T : R) (n : Z) (strength : R) : res (list (list R)) :=
  let* rows := perform_field_rollout w T n strength (0.5 * m_tau (w_dmp w)) in Ok (map field_row rows).
End Dmps.
