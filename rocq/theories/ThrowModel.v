(** Model of the ball-throwing task demos/robot: TaskThrowBall.py, runSimulationThrowBall.cpp,
    robotExecuteDmp.cpp and robotExecuteTrajectory.cpp. *)
From Coq Require Import String SpecFloat.
From Verif Require Import Base DynModel ParamModel FaModel TrajModel DmpModel IntModel CppModel CppTrajModel.
Open Scope R_scope.

(** position, velocity and acceleration of the hand *)
Definition hand : Type := list R * list R * list R.
Definition vplus (a b : list R) : list R := map2 Rplus a b.
Definition vtimes (c : R) (a : list R) : list R := map (Rmult c) a.
(** a[i] = x *)
Fixpoint replace_at {A} (i : nat) (x : A) (l : list A) : list A :=
  match l, i with
  | [], _ => []
  | _ :: l', 0%nat => x :: l'
  | a :: l', S i' => a :: replace_at i' x l'
  end.
Definition floor_nat (r : R) : nat := Z.to_nat (Int_part r).
Definition ceil_nat (r : R) : nat := Z.to_nat (- Int_part (- r)).
(** ydd_ball[0] = 0.0; ydd_ball[1] = -9.81 *)
Definition fall (e : exn) (a : list R) : res (list R) :=
  match a with _ :: _ :: r => Ok (0 :: -9.81 :: r) | _ => Err e end.

(** ** Python *)
Inductive mode := InHand | InAir | OnFloor.
(** The variables of the loop TaskThrowBall.py l.133-164. The rows of arrays that have been written, instead
    of arrays of zeros; ydd_ball is a view of a row of ydds, represented by its number. *)
Record psim := PSim { s_ydds : list (list R); s_ball : list (list R); s_yd : list R; s_view : nat; s_mode : mode }.
(** l.125-132; ydd_ball is not used before it is a row of ydds *)
Definition py_first (h : hand) : psim := let '(y, _, ydd) := h in PSim [ydd] [y] (map (fun _ => 0) y) 0 InHand.
(** l.137-164, one iteration: t is ts[ii] *)
Definition py_throw (y_floor dt t : R) (s : psim) (h : hand) : res psim :=
  let '(y, yd, ydd) := h in
  let ydds := (s_ydds s ++ [ydd])%list in
  match s_mode s with
  | InHand => Ok (PSim ydds (s_ball s ++ [y])%list yd (length (s_ydds s)) (if Rlt_dec 0.6 t then InAir else InHand))
  | InAir =>
    let* a := fall IndexError (nth (s_view s) ydds []) in
    let ydds := replace_at (s_view s) a ydds in
    let v := vplus (s_yd s) (vtimes dt a) in
    let b := vplus (last (s_ball s) []) (vtimes dt v) in
    if Rlt_dec (nth 1 b 0) y_floor
    then Ok (PSim ydds (s_ball s ++ [replace_at 1 y_floor b])%list v (s_view s) OnFloor)
    else Ok (PSim ydds (s_ball s ++ [b])%list v (s_view s) InAir)
  | OnFloor => Ok (PSim ydds (s_ball s ++ [last (s_ball s) []])%list (s_yd s) (s_view s) OnFloor)
  end.
Section Simulation.
(** the DMP: integrate_start, integrate_step and states_as_pos_vel_acc *)
Variable D : Type.
Variable start : D -> res (D * list R * list R).
Variable step : D -> R -> list R -> res (D * list R * list R).
Variable sample : D -> list R -> list R -> res hand.
(** l.133-164 from row k on, with n rows to come. Returns the samples of the hand too. *)
Fixpoint py_loop (y_floor dt : R) (k n : nat) (d : D) (x : list R) (s : psim) : res (list hand * psim) :=
  match n with
  | 0%nat => Ok ([], s)
  | S n' =>
    let* p := step d dt x in
    let '(d, x, xd) := p in
    let* h := sample d x xd in
    let* s := py_throw y_floor dt (INR k * dt) s h in
    let* q := py_loop y_floor dt (S k) n' d x s in
    Ok (h :: fst q, snd q)
  end.
(** l.166-168 *)
Fixpoint py_rows (dt : R) (k : nat) (hs : list hand) (ydds ball : list (list R)) : list (list R) :=
  match hs, ydds, ball with
  | (y, yd, _) :: hs', a :: ydds', b :: ball' => ([INR k * dt] ++ y ++ yd ++ a ++ b)%list :: py_rows dt (S k) hs' ydds' ball'
  | _, _, _ => []
  end.
(** l.110-168: the steps between 0 and 1.5 tau; writing the first row of an array without rows raises *)
Definition py_simulation (tau y_floor : R) (d : D) : res (list (list R)) :=
  let dt := 0.01 in
  let n := ceil_nat (1.5 * tau / dt) in
  let* p := start d in
  let '(d, x, xd) := p in
  match n with
  | 0%nat => Err IndexError
  | S n' =>
    let* h := sample d x xd in
    let* q := py_loop y_floor dt 1 n' d x (py_first h) in
    Ok (py_rows dt 0 (h :: fst q) (s_ydds (snd q)) (s_ball (snd q)))
  end.

(** ** C++ *)
(** runSimulationThrowBall.cpp l.37-52 *)
Record bsim := BSim { b_time : R; b_y : list R; b_yd : list R; b_ydd : list R; b_ball : list R; b_vel : list R; b_acc : list R; b_hand : bool }.
Definition zero2 : list R := [0; 0].
Definition b_new : bsim := BSim 0 zero2 zero2 zero2 zero2 zero2 zero2 true.
Definition c_floor : R := -0.3.
(** l.54-91, and the part of the constructor that sets the floor *)
Definition b_step (dt : R) (h : hand) (s : bsim) : res bsim :=
  let '(y, yd, ydd) := h in
  if b_hand s then Ok (BSim (b_time s + dt) y yd ydd y yd ydd (if Rlt_dec 0.6 (b_time s) then false else true)) else
  let* a := fall RuntimeError (b_acc s) in
  let v := vplus (b_vel s) (vtimes dt a) in
  let b := vplus (b_ball s) (vtimes dt v) in
  if Rlt_dec (nth 1 b 0) c_floor
  then Ok (BSim (b_time s + dt) y yd ydd (replace_at 1 c_floor b) zero2 zero2 false)
  else Ok (BSim (b_time s + dt) y yd ydd b v a false).
(** l.120-133: segments of two numbers, assigned vectors of the same size (else an assertion) *)
Definition b_state (s : bsim) : res (list R) :=
  if forallb (fun v => Nat.eqb (length v) 2) [b_y s; b_yd s; b_ydd s; b_ball s; b_vel s; b_acc s]
  then Ok ([b_time s] ++ b_y s ++ b_yd s ++ b_ydd s ++ b_ball s ++ b_vel s ++ b_acc s ++ [if b_hand s then 1 else 0])%list
  else Err RuntimeError.
(** robotExecuteDmp.cpp l.90-95 *)
Fixpoint c_loop (dt : R) (n : nat) (d : D) (x xd : list R) (s : bsim) : res (list (list R)) :=
  match n with
  | 0%nat => Ok []
  | S n' =>
    let* h := sample d x xd in
    let* s := b_step dt h s in
    let* r := b_state s in
    let* p := step d dt x in
    let '(d, x, xd) := p in
    let* rs := c_loop dt n' d x xd s in
    Ok (r :: rs)
  end.
(** l.73-95. Simplification: a negative duration, which asserts, gives no rows. *)
Definition c_execute_dmp (tau : R) (d : D) : res (list (list R)) :=
  let dt := 0.01 in
  let n := floor_nat (1.5 * tau / dt) in
  let* p := start d in
  let '(d, x, xd) := p in
  c_loop dt n d x xd b_new.
End Simulation.
(** robotExecuteTrajectory.cpp l.83-87, for the steps (dt, sample) *)
Fixpoint c_follow (l : list (R * hand)) (s : bsim) : res (list (list R)) :=
  match l with
  | [] => Ok []
  | (dt, h) :: l' =>
    let* s := b_step dt h s in
    let* r := b_state s in
    let* rs := c_follow l' s in
    Ok (r :: rs)
  end.
(** l.72-87: ts[1] asserts if there is only one time *)
Definition c_execute_trajectory (c : ctraj) : res (list (list R)) :=
  match ct_ts c with
  | t0 :: t1 :: _ =>
    let dt k := match k with 0%nat => t1 - t0 | S k' => nth k (ct_ts c) 0 - nth k' (ct_ts c) 0 end in
    let row m k := nth k (mrows m) [] in
    c_follow (map (fun k => (dt k, (row (ct_ys c) k, row (ct_yds c) k, row (ct_ydds c) k))) (seq 0 (length (ct_ts c)))) b_new
  | _ => Err RuntimeError
  end.

(** ** The DMPs of both languages *)
Section Dmps.
Variable predict_fn : nat -> list (string * pval) -> R -> res R.
(** Dmp.py:states_as_pos_vel_acc for one state *)
Definition py_sample (m : dmp) (x xd : list R) : res hand :=
  let* l := states_as_rows m [x] [xd] in
  match l with [h] => Ok h | _ => Err Unmodelled end.
(** run_python_simulation, TaskThrowBall.py l.103-168 *)
Definition run_python_simulation (y_floor : R) (m : dmp) : res (list (list R)) :=
  py_simulation dmp (fun m => m_start predict_fn m None) (m_step predict_fn RungeKutta) py_sample (m_tau m) y_floor m.
Variable ex : R -> R.
(** robotExecuteDmp.cpp *)
Definition robot_execute_dmp (c : cdmp) : res (list (list R)) :=
  c_execute_dmp cdmp (c_start ex) (fun c dt x => let* p := c_rk ex c dt x in Ok (c, fst p, snd p)) c_pos_vel_acc (cm_tau c) c.
End Dmps.

(** ** Costs *)
(** TaskThrowBall.py l.12-17 *)
Record throw_task := ThrowTask { x_goal : R; x_margin : R; task_floor : R; acc_weight : R }.
(** l.38-60: ball[-1, 0] is an IndexError without rows, or with fewer than eight columns *)
Definition throw_cost (t : throw_task) (rows : list (list R)) : res (list R) :=
  let ydd r := firstn 2 (skipn 5 r) in
  match last rows [] with
  | r => match skipn 7 r with
         | [] => Err IndexError
         | bx :: _ =>
           let d := Rabs (bx - x_goal t) - x_margin t in
           let d := if Rlt_dec d 0 then 0 else d in
           let s := if Rlt_dec 0 (acc_weight t) then rsum (map (fun r => rsum (map (fun a => a * a) (ydd r))) rows) else 0 in
           let a := acc_weight t * s / INR (length rows) in
           Ok [d + a; d; a]
         end
  end.

(** ** The release of the ball in double precision *)
(** the literals 0.01 and 0.6: the nearest numbers to the quotients *)
Definition sf_step : spec_float := SFdiv 53 1024 (sf_of_nat 1) (sf_of_nat 100).
Definition sf_release : spec_float := SFdiv 53 1024 (sf_of_nat 6) (sf_of_nat 10).
(** np.arange(0, stop, dt)[k] = 0 + k * dt *)
Definition py_time (k : nat) : spec_float := SFmul 53 1024 (sf_of_nat k) sf_step.
(** time += dt, k times *)
Fixpoint cpp_time (k : nat) : spec_float :=
  match k with 0%nat => S754_zero false | S k' => SFadd 53 1024 (cpp_time k') sf_step end.
