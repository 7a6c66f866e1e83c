(** Model of the demonstration tasks demos/python/bbo_of_dmps/TaskViapoint.py,
    arm2D/TaskViapointArm2D.py, arm2D/TaskSolverDmpArm2D.py and of the task in
    with_schedules/demo_bbo_of_dmps_with_gains.py.

    Weights and radii are Python floats. Via-points and goals are vectors. Plotting is not modelled. *)
From Coq Require Import String.
From Verif Require Import Base SessionModel ParamModel TrajModel DynModel DmpModel.
Open Scope R_scope.

(** np.linalg.norm *)
Definition norm (v : list R) : R := sqrt (rsum (map (fun x => x * x) v)).
(** a - b for vectors. Simplification: numpy's broadcasting of length 1 is outside the model. *)
Definition vsub (a b : list R) : res (list R) :=
  if Nat.eqb (length a) (length b) then Ok (map2 Rminus a b)
  else if (Nat.eqb (length a) 1 || Nat.eqb (length b) 1)%bool then Err Unmodelled else Err ValueError.

(** TaskViapoint.py l.29-42 *)
Record task := Task { k_via : list R; k_time : option R; k_radius : R; k_goal : option (list R);
                      k_goal_time : option R; k_wv : R; k_wa : R; k_wr : R; k_wg : R }.
(** the keyword arguments; [None] in [kw_goal] means that goal is not given, [Some None] that it is None *)
Record task_kw := TKw { kw_time : option R; kw_radius : option R; kw_goal : option (option (list R));
                        kw_goal_time : option R; kw_wv : option R; kw_wa : option R; kw_wr : option R;
                        kw_wg : option R }.
Definition new_task (via : list R) (kw : task_kw) : res task :=
  let goal := opt (kw_goal kw) (Some (repeat 0 (length via))) in
  let t := Task via (kw_time kw) (opt (kw_radius kw) 0) goal (kw_goal_time kw)
                (opt (kw_wv kw) 1) (opt (kw_wa kw) 0.0001) (opt (kw_wr kw) 0) (opt (kw_wg kw) 0) in
  match goal with
  | None => Ok t
  | Some g => if Nat.eqb (length g) (length via) then Ok t else Err ValueError
  end.
(** l.44-45 *)
Definition n_dims (k : task) : nat := length (k_via k).
(** l.47-54 *)
Definition cost_labels : list string := ["viapoint"; "acceleration"; "goal"; "regularization"]%string.

(** np.argmin: the first index of the smallest value; an empty array raises ValueError *)
Fixpoint argmin_from (i : nat) (b : nat * R) (l : list R) : nat :=
  match l with
  | [] => fst b
  | x :: l' => argmin_from (S i) (if Rlt_dec x (snd b) then (i, x) else b) l'
  end.
Definition argmin (l : list R) : res nat :=
  match l with [] => Err ValueError | x :: l' => Ok (argmin_from 1 (0%nat, x) l') end.

(** l.56-80; np.argmax of nothing raises ValueError. Simplification: as many times as positions
    (they come from the same matrix). *)
Definition get_waypoint (k : task) (ts : list R) (ys : list (list R)) : res (R * list R) :=
  match k_time k with
  | None =>
    let* ds := mapM (fun y => vsub y (k_via k)) ys in
    let* i := argmin (map norm ds) in
    let* y := nth_res ys i in
    let* t := nth_res ts i in
    Ok (t, y)
  | Some vt =>
    match ts with
    | [] => Err ValueError
    | _ => let* y := nth_res ys (argmax_ge ts vt) in Ok (vt, y)
    end
  end.

(** l.126-138 *)
Definition viapoint_dist (k : task) (ts : list R) (ys : list (list R)) : res R :=
  if Rlt_dec 0 (k_wv k) then
    let* w := get_waypoint k ts ys in
    let* d := vsub (snd w) (k_via k) in
    let d := norm d in
    if Rlt_dec 0 (k_radius k) then
      let d := d - k_radius k in if Rlt_dec d 0 then Ok 0 else Ok d
    else Ok d
  else Ok 0.
(** l.140-145; accelerations are matrices. 0 columns give 0/0. *)
Definition sum_ydd (k : task) (ydds : mat) : res R :=
  if Rlt_dec 0 (k_wa k) then
    if Nat.eqb (mcols ydds) 0 then Err NonFinite else
    Ok (rsum (map (fun r => rsum (map (fun x => x * x) r)) (mrows ydds)) / INR (mcols ydds))
  else Ok 0.
(** l.147-149 *)
Definition l2_norm (k : task) (sample : list R) : R :=
  if Rlt_dec 0 (k_wr k) then norm sample else 0.
(** ys[ts >= goal_time, :] *)
Fixpoint after (ts : list R) (t : R) (ys : list (list R)) : list (list R) :=
  match ts, ys with
  | x :: ts', y :: ys' => if Rle_dec t x then y :: after ts' t ys' else after ts' t ys'
  | _, _ => []
  end.
(** l.151-157: the mean distance (None for nan, the mean of nothing) and the new n_time_steps *)
Definition delay_cost (k : task) (ts : list R) (ys : list (list R)) : res (option R * nat) :=
  match k_goal k with
  | Some g =>
    if Rlt_dec 0 (k_wg k) then
      match k_goal_time k with
      | None => Err TypeError
      | Some gt =>
        let sel := after ts gt ys in
        let* ds := mapM (fun y => vsub y g) sel in
        Ok (match ds with [] => None | _ => Some (rsum (map norm ds) / INR (length ds)) end, length sel)
      end
    else Ok (Some 0, length ts)
  | None => Ok (Some 0, length ts)
  end.
(** l.122-164. Dividing by zero time steps gives nan or inf for numpy numbers (acceleration_weight > 0)
    and raises for Python's. *)
Definition evaluate_local (k : task) (ts : list R) (ys : list (list R)) (ydds : mat) (sample : list R)
  : res (list R) :=
  let* dist := viapoint_dist k ts ys in
  let* acc := sum_ydd k ydds in
  let l2 := l2_norm k sample in
  let* dn := delay_cost k ts ys in
  let n := snd dn in
  if Nat.eqb n 0 then (if Rlt_dec 0 (k_wa k) then Err NonFinite else Err ZeroDivisionError) else
  match fst dn with
  | None => Err NonFinite
  | Some delay =>
    let cs := [k_wv k * dist; k_wa k * acc / INR n; k_wg k * delay; k_wr k * l2] in
    Ok (rsum cs :: cs)
  end.

(** ** l.97-120: the columns of the cost variables *)
Inductive cost_vars := CvArray (m : mat) | CvFrame (names : list string) (m : mat).
(** selection of the columns with the given names; Simplification: names occur once *)
Fixpoint find_name (names : list string) (s : string) (i : nat) : res nat :=
  match names with
  | [] => Err KeyError
  | x :: l => if String.eqb x s then Ok i else find_name l s (S i)
  end.
Definition frame_cols (names : list string) (m : mat) (want : list string) : res mat :=
  let* ixs := mapM (fun s => find_name names s 0) want in
  Ok (Mat (length want) (map (fun r => map (fun i => nth i r 0) ixs) (mrows m))).
Definition extract_t (c : cost_vars) : res (list R) :=
  match c with
  | CvArray m => if Nat.eqb (mcols m) 0 then Err IndexError else Ok (col 0 (mrows m))
  | CvFrame names m => let* i := find_name names "t" 0 in Ok (col i (mrows m))
  end.
Definition extract_y (d : nat) (c : cost_vars) : res mat :=
  match c with
  | CvArray m => Ok (cols_of m 1 (1 + d))
  | CvFrame names m => frame_cols names m (labels_of "y" d)
  end.
Definition extract_ydd (d : nat) (c : cost_vars) : res mat :=
  match c with
  | CvArray m => Ok (cols_of m (1 + d * 2) (1 + d * 3))
  | CvFrame names m => frame_cols names m (labels_of "ydd" d)
  end.
(** l.82-95 *)
Definition evaluate_rollout (k : task) (c : cost_vars) (sample : list R) : res (list R) :=
  let* ts := extract_t c in
  let* ys := extract_y (n_dims k) c in
  let* ydds := extract_ydd (n_dims k) c in
  evaluate_local k ts (mrows ys) ydds sample.

(** ** dmpbbo/bbo_of_dmps/TaskSolverDmp.py l.37-51: the rollout as trajectory and as cost variables *)
Definition as_traj (d : nat) (r : list (R * (list R * list R * list R))) : res traj :=
  let rows := map snd r in
  new_traj (map fst r) (V2 (Mat d (map (fun p => fst (fst p)) rows)))
           (Some (V2 (Mat d (map (fun p => snd (fst p)) rows))))
           (Some (V2 (Mat d (map (fun p => snd p) rows)))) None.
Definition as_cost_vars (frame : bool) (t : traj) : res cost_vars :=
  if frame then let* p := as_dataframe t in Ok (CvFrame (fst p) (snd p))
  else let* m := as_matrix t in Ok (CvArray m).

Section Predict.
Variable predict_fn : nat -> list (string * pval) -> R -> res R.
(** dmpbbo/bbo_of_dmps/run_optimization_task.py l.67-70 (and l.53-54): rollout and evaluation of one sample *)
Definition cost_of_sample (s : solver) (frame : bool) (k : task) (sample : list R)
  : solver * res (list R) :=
  let '(s', r) := rollout predict_fn s sample in
  (s', let* r := r in
       let* t := as_traj (m_dim (o_dmp s')) r in
       let* c := as_cost_vars frame t in
       evaluate_rollout k c sample).
End Predict.

(** ** arm2D/TaskSolverDmpArm2D.py *)
(** l.31-40: len(None) raises TypeError, and given link lengths are replaced *)
Definition arm_lengths (given : option (list R)) (d : nat) : res (list R) :=
  match given with
  | None => Err TypeError
  | Some _ => if Nat.eqb d 0 then Err ZeroDivisionError else Ok (repeat (1 / INR d) d)
  end.
(** l.72-80: one time step, from the position (x, y) of a joint and the sum of angles so far *)
Fixpoint links (s x y : R) (angles lens : list R) : res (list R) :=
  match angles with
  | [] => Ok []
  | a :: angles' =>
    match lens with
    | [] => Err IndexError
    | l :: lens' =>
      let s := s + a in
      let x := x + cos s * l in
      let y := y + sin s * l in
      let* rest := links s x y angles' lens' in
      Ok (x :: y :: rest)
    end
  end.
(** l.69-87 *)
Definition angles_to_link_positions (angles : mat) (lens : list R) : res mat :=
  let* rows := mapM (fun r => let* ps := links 0 0 0 r lens in Ok (0 :: 0 :: ps)) (mrows angles) in
  Ok (Mat (2 * (mcols angles + 1)) rows).
(** l.42-56 *)
Definition arm_cost_vars (t : traj) (lens : list R) : res mat :=
  let* ps := angles_to_link_positions (tj_ys t) lens in
  let* m := as_matrix t in
  stack m ps.

(** ** arm2D/TaskViapointArm2D.py l.33-55. AssertionError is written RuntimeError. *)
Definition arm_evaluate (k : task) (dofs : nat) (m : mat) (sample : list R) : res (list R) :=
  if Nat.eqb (1 + dofs * 3 + (dofs + 1) * 2) (mcols m) then
    let offset := (1 + dofs * 2)%nat in
    evaluate_local k (col 0 (mrows m)) (mrows (cols_of m (mcols m - 2) (mcols m)))
                   (cols_of m offset (offset + dofs)) sample
  else Err RuntimeError.

(** ** with_schedules/demo_bbo_of_dmps_with_gains.py *)
(** l.40-47 *)
Record gtask := GTask { g_via : list R; g_time : R; g_min : R; g_max : R; g_wv : R; g_wa : R; g_wg : R }.
(** l.49-56 *)
Definition gain_labels : list string := ["viapoint"; "acceleration"; "gains"]%string.
(** l.58-93. Simplifications: the via-point is a vector (the demo uses a 1 x 1 matrix);
    weights are Python floats but sums are numpy numbers, so that dividing by 0 gives nan or inf. *)
Definition gains_evaluate (k : gtask) (m : mat) : res (list R) :=
  let d := length (g_via k) in
  if Nat.eqb (mcols m) 0 then Err IndexError else
  let ts := col 0 (mrows m) in
  let sum f c := rsum (map (fun r => rsum (map f r)) (mrows c)) in
  match ts with
  | [] => Err ValueError
  | _ =>
    let* y := nth_res (mrows (cols_of m 1 (1 + d))) (argmax_ge ts (g_time k)) in
    let* v := vsub y (g_via k) in
    let n := INR (nrows m) in
    if Req_EM_T (n * g_max k) 0 then Err NonFinite else
    let cs := [g_wv k * norm v;
               g_wa k * sum Rabs (cols_of m (1 + d * 2) (1 + d * 3)) / n;
               g_wg k * ((sum (fun x => x) (cols_of m (1 + d * 3) (1 + d * 4)) - g_min k) / (n * g_max k))] in
    Ok (rsum cs :: cs)
  end.
