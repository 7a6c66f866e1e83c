(** Specification vocabulary for DMPs. *)
From Coq Require Import String.
From Verif Require Import Base DynModel DynSpec ParamModel TrajModel DmpModel.
Open Scope R_scope.

(** parameters of a subsystem for which it has a solution *)
Definition sub_ok (s : sub) : Prop :=
  sub_tau s <> 0 /\
  match s with
  | SubE e => length (e_attr e) = length (e_init e) /\ par_ok (e_alpha e) (length (e_init e))
  | SubS g => par_ok (g_rate g) (length (g_init g)) /\ par_ok (g_infl g) (length (g_init g)) /\
              (forall i, (i < length (g_init g))%nat -> nth i (g_init g) 0 <> 0)
  | SubR h => h_left h = None /\ richards_ok h /\
              (forall i, (i < length (h_init h))%nat -> nth i (h_init h) 0 <> par_val (h_right h) i)
  | SubT t => t_init t = [if t_down t then 1 else 0]
  end.
Definition opt_ok (n : nat) (o : option sub) : Prop :=
  match o with None => True | Some s => sub_ok s /\ sub_dim s = n end.

(** the function approximators of a DMP: none, or at least one per dimension, whose predictions are
    defined *)
Definition fas_ok (predict_fn : nat -> list (string * pval) -> R -> res R) (m : dmp) : Prop :=
  match m_fas m with
  | None => True
  | Some fs => (fs = [] \/ (m_dim m <= length fs)%nat) /\
               forall i f, nth_error fs i = Some f -> is_trained f = true ->
                 forall ph, exists v, predict_fn i (f_model f) ph = Ok v
  end.
(** a DMP whose parts fit together. Initial states are needed (have been set) only where the code
    refers to them. *)
Definition wf (predict_fn : nat -> list (string * pval) -> R -> res R) (m : dmp) : Prop :=
  let n := m_dim m in
  m_tau m <> 0 /\ length (m_attr m) = n /\
  (forall y, m_y0 m = Some y -> length y = n) /\
  (m_req m = true \/ m_scaling m = GMinusY0 -> m_y0 m <> None) /\
  (m_scaling m = Amplitude -> exists a, m_amps m = Some a /\ length a = n) /\
  d_dimy (m_spring m) = n /\ d_tau (m_spring m) = m_tau m /\ length (d_init (m_spring m)) = (2 * n)%nat /\
  par_ok (d_damp (m_spring m)) n /\ par_ok (d_spring (m_spring m)) n /\ par_ok (d_mass (m_spring m)) n /\
  (forall i, (i < n)%nat -> par_val (d_mass (m_spring m)) i <> 0) /\
  opt_ok n (m_goal m) /\ opt_ok n (m_damping m) /\
  sub_ok (m_phase m) /\ sub_dim (m_phase m) = 1%nat /\
  sub_ok (m_gating m) /\ sub_dim (m_gating m) = 1%nat /\
  fas_ok predict_fn m.

(** the parts of row k of a table of states *)
Definition at_ (xs : list (list R)) (k j : nat) : R := nth j (nth k xs []) 0.
Section Parts.
Variable n : nat.
Variable xs : list (list R).
Definition yv k i := at_ xs k i.
Definition zv k i := at_ xs k (n + i).
Definition gv k i := at_ xs k (2 * n + i).
Definition pv k := at_ xs k (3 * n).
Definition av k := at_ xs k (3 * n + 1).
Definition cv k i := at_ xs k (3 * n + 2 + i).
End Parts.

(** the target of the spring in dimension i: the state of the goal system, rescaled from [0,1] to
    [y0,attr] if necessary *)
Definition target (m : dmp) (g : R) (i : nat) : R :=
  if m_req m then
    let y0 := nth i (opt (m_y0 m) []) 0 in y0 + (nth i (m_attr m) 0 - y0) * g
  else g.
(** factor of the forcing term *)
Definition factor (m : dmp) (i : nat) : R :=
  match m_scaling m with
  | NoScaling => 1
  | GMinusY0 => nth i (m_attr m) 0 - nth i (opt (m_y0 m) []) 0
  | Amplitude => nth i (opt (m_amps m) []) 0
  end.
(** prediction of the i-th function approximator *)
Definition pred_val (predict_fn : nat -> list (string * pval) -> R -> res R) (m : dmp) (ph : R) (i : nat) : R :=
  match nth_error (fas_of (pdmp_of m)) i with
  | None => 0
  | Some f => if is_trained f then match predict_fn i (f_model f) ph with Ok v => v | Err _ => 0 end else 0
  end.
(** acceleration of the transformation system *)
Definition accel (m : dmp) (i : nat) (y z g c f : R) : R :=
  (- par_val (d_spring (m_spring m)) i * (y - g) - c * z) / (par_val (d_mass (m_spring m)) i * m_tau m)
  + f / m_tau m.

(** What analytical_solution returns: [r] contains the closed-form solutions of the subsystems, and
    the spring system integrated by Euler steps from its initial state under the forcing terms. *)
Definition rollout_spec (predict_fn : nat -> list (string * pval) -> R -> res R)
    (m : dmp) (ts : list R) (suppress : bool) (r : ana_result) : Prop :=
  let n := m_dim m in
  let xs := a_xs r in
  let xds := a_xds r in
  length xs = length ts /\ length xds = length ts /\
  length (a_forcing r) = length ts /\ length (a_fa r) = length ts /\
  (forall k, (k < length ts)%nat ->
     length (nth k xs []) = dim_x m /\ length (nth k xds []) = dim_x m /\
     length (nth k (a_forcing r) []) = n /\ length (nth k (a_fa r) []) = n) /\
  (* closed-form parts *)
  (exists ps pds, sub_ana (m_phase m) ts = Ok (ps, pds) /\
     forall k, (k < length ts)%nat -> pv n xs k = at_ ps k 0 /\ pv n xds k = at_ pds k 0) /\
  (exists ps pds, sub_ana (m_gating m) ts = Ok (ps, pds) /\
     forall k, (k < length ts)%nat -> av n xs k = at_ ps k 0 /\ av n xds k = at_ pds k 0) /\
  match m_goal m with
  | None => forall k i, (k < length ts)%nat -> (i < n)%nat -> gv n xs k i = nth i (m_attr m) 0 /\ gv n xds k i = 0
  | Some g => exists ps pds, sub_ana g ts = Ok (ps, pds) /\
     forall k i, (k < length ts)%nat -> (i < n)%nat -> gv n xs k i = at_ ps k i /\ gv n xds k i = at_ pds k i
  end /\
  match m_damping m with
  | None => forall k i, (k < length ts)%nat -> (i < n)%nat ->
      cv n xs k i = par_val (d_damp (m_spring m)) i /\ cv n xds k i = 0
  | Some g => exists ps pds, sub_ana g ts = Ok (ps, pds) /\
     forall k i, (k < length ts)%nat -> (i < n)%nat -> cv n xs k i = at_ ps k i /\ cv n xds k i = at_ pds k i
  end /\
  (* forcing terms *)
  (forall k i, (k < length ts)%nat -> (i < n)%nat ->
     at_ (a_fa r) k i = (if suppress then 0 else pred_val predict_fn m (pv n xs k) i) /\
     at_ (a_forcing r) k i = at_ (a_fa r) k i * av n xs k * factor m i) /\
  (* the spring system *)
  (forall i, (i < n)%nat ->
     yv xs 0 i = nth i (d_init (m_spring m)) 0 /\ zv n xs 0 i = nth (n + i) (d_init (m_spring m)) 0) /\
  (forall k i, (k < length ts)%nat -> (i < n)%nat ->
     yv xds k i = zv n xs k i / m_tau m /\
     zv n xds k i = accel m i (yv xs k i) (zv n xs k i) (target m (gv n xs k i) i) (cv n xs k i)
                          (at_ (a_forcing r) k i)) /\
  (forall k i, (S k < length ts)%nat -> (i < n)%nat ->
     yv xs (S k) i = yv xs k i + (nth (S k) ts 0 - nth k ts 0) * yv xds k i /\
     zv n xs (S k) i = zv n xs k i + (nth (S k) ts 0 - nth k ts 0) * zv n xds k i).

(** ** Histories of a DMP *)
(** the DMP with given initial state and scaling amplitudes recorded *)
Definition with_y0_amps (m : dmp) (y a : list R) : dmp :=
  Dmp (m_tau m) (m_dim m) (m_x_init m) (Some y) (m_attr m) (m_fas m) (m_sel m) (m_spring m) (m_goal m) (m_phase m)
      (m_gating m) (m_damping m) (m_req m) (m_scaling m) (Some a) (m_ts_train m).
(** a DMP whose parts fit together, except that the initial state or the scaling amplitudes may not
    have been set *)
Definition sound (predict_fn : nat -> list (string * pval) -> R -> res R) (m : dmp) : Prop :=
  (forall y, m_y0 m = Some y -> length y = m_dim m) /\
  (forall y a, length y = m_dim m -> length a = m_dim m -> wf predict_fn (with_y0_amps m y a)).
(** everything the code refers to has been set *)
Definition ready (m : dmp) : Prop :=
  (m_req m = true \/ m_scaling m = GMinusY0 -> m_y0 m <> None) /\
  (m_scaling m = Amplitude -> exists a, m_amps m = Some a /\ length a = m_dim m).
(** the goal system can start from y: always, unless it is a system with its own idea of a start *)
Definition goal_accepts (m : dmp) (y : list R) : Prop :=
  m_req m = true \/
  match m_goal m with
  | None | Some (SubE _) => True
  | Some (SubR h) => forall i, (i < m_dim m)%nat -> nth i y 0 <> par_val (h_right h) i
  | _ => False
  end.

(** ** Training *)
(** a demonstration in d dimensions *)
Definition demo (d : nat) (t : traj) : Prop :=
  let rows_ok m := length (mrows m) = length (tj_ts t) /\ Forall (fun r => length r = d) (mrows m) /\ mcols m = d in
  tj_dim t = d /\ rows_ok (tj_ys t) /\ rows_ok (tj_yds t) /\ rows_ok (tj_ydds t).
(** the function approximators return the training targets *)
Definition fits (predict_fn : nat -> list (string * pval) -> R -> res R) (m : dmp) (phases : list R) (tg : list (list R)) : Prop :=
  forall k i, (k < length phases)%nat -> (i < m_dim m)%nat -> pred_val predict_fn m (nth k phases 0) i = at_ tg k i.
(** the samples of the demonstration are consistent with Euler steps, starting at rest *)
Definition euler_demo (d : nat) (t : traj) : Prop :=
  let ts := tj_ts t in
  let y := at_ (mrows (tj_ys t)) in let yd := at_ (mrows (tj_yds t)) in let ydd := at_ (mrows (tj_ydds t)) in
  forall i, (i < d)%nat -> yd 0%nat i = 0 /\
    forall k, (S k < length ts)%nat ->
      y (S k) i = y k i + (nth (S k) ts 0 - nth k ts 0) * yd k i /\
      yd (S k) i = yd k i + (nth (S k) ts 0 - nth k ts 0) * ydd k i.

(** what a DMP records about the demonstration it was trained with *)
Definition trained_on (t : traj) (m : dmp) : Prop :=
  let y := at_ (mrows (tj_ys t)) in
  m_tau m = last (tj_ts t) 0 /\
  m_y0 m = Some (nth 0 (mrows (tj_ys t)) []) /\
  d_init (m_spring m) = (nth 0 (mrows (tj_ys t)) [] ++ repeat 0 (m_dim m))%list /\
  m_attr m = last (mrows (tj_ys t)) [] /\
  m_ts_train m = Some (tj_ts t) /\
  exists a, m_amps m = Some a /\ length a = m_dim m /\
    forall i, (i < m_dim m)%nat ->
      (exists k l, (k < length (tj_ts t))%nat /\ (l < length (tj_ts t))%nat /\ nth i a 0 = y k i - y l i) /\
      (forall k l, (k < length (tj_ts t))%nat -> (l < length (tj_ts t))%nat -> y k i - y l i <= nth i a 0).

(** what training does not change: the phase and gating systems are only rescaled in time; the damping
    system and the constants of the spring system stay the same *)
Definition keeps_constants (m m' : dmp) : Prop :=
  let scaled s := sub_set_tau s (sub_tau s * (m_tau m' / m_tau m)) in
  m_phase m' = scaled (m_phase m) /\ m_gating m' = scaled (m_gating m) /\ m_damping m' = m_damping m /\
  d_damp (m_spring m') = d_damp (m_spring m) /\ d_spring (m_spring m') = d_spring (m_spring m) /\
  d_mass (m_spring m') = d_mass (m_spring m) /\ (m_goal m = None -> m_goal m' = None).

(** ** Further conditions *)
(** times at which the closed form of a subsystem satisfies its differential equation: for the time
    system all but its end *)
Definition regular (s : sub) (t : R) : Prop := match s with SubT h => t <> t_tau h | _ => True end.
Definition dmp_regular (m : dmp) (t : R) : Prop :=
  regular (m_phase m) t /\ regular (m_gating m) t /\
  match m_goal m with Some g => regular g t | None => True end /\
  match m_damping m with Some g => regular g t | None => True end.

(** an exponential goal system has the attractor of the DMP (the setter of y_attr and
    differential_equation see to that) *)
Definition synced (m : dmp) : Prop :=
  match m_goal m with Some (SubE e) => e_attr e = m_attr m | _ => True end.
(** in a DMP without goal system the goal is not rescaled *)
Definition plain_goal (m : dmp) : Prop := m_goal m = None -> m_req m = false.
(** keyword arguments of the constructor which keep the default subsystems *)
Definition full_kw (n : nat) (kw : dmp_kw) : Prop :=
  k_transf kw = None /\ k_phase kw = None /\ k_gating kw = None /\ k_goal kw = None /\ k_damping kw = None /\
  par_ok (opt (k_alpha kw) (PScal 20)) n.
(** which start and end are possible: with NO_SCALING the Richards goal system needs them to differ *)
Definition distinct_for (ty : dmp_type) (y0 attr : list R) : Prop :=
  match ty with Sct23 true _ => forall i, (i < length y0)%nat -> nth i y0 0 <> nth i attr 0 | _ => True end.


(** ** Scaling of time *)
(** subsystems whose closed form depends on t / tau only *)
Definition time_invariant (s : sub) : Prop := match s with SubS _ => False | _ => True end.
Definition dmp_time_invariant (m : dmp) : Prop :=
  time_invariant (m_phase m) /\ time_invariant (m_gating m) /\
  match m_goal m with Some g => time_invariant g | None => True end /\ m_damping m = None.

(** ** Limits *)
(** subsystems whose closed form tends to l in dimension i *)
Definition limit (s : sub) (i : nat) (l : R) : Prop :=
  match s with
  | SubE e => nth i (e_attr e) 0 = l /\ 0 < par_val (e_alpha e) i / e_tau e
  | SubS g => l = 0 /\ par_val (g_rate g) i < 0
  | SubR h => par_val (h_right h) i = l /\ 0 < par_val (h_alpha h) i / h_tau h
  | SubT _ => False
  end.
(** goal systems which reach every attractor: without rescaling only those that know y_attr *)
Definition movable (m : dmp) : Prop :=
  match m_goal m with
  | None => m_req m = false
  | Some g => forall i, (i < m_dim m)%nat ->
      if m_req m then limit g i 1
      else match g with SubE e => 0 < par_val (e_alpha e) i / e_tau e | _ => False end
  end.
(** the goal system reaches the attractor of the DMP *)
Definition follows (m : dmp) : Prop :=
  match m_goal m with
  | None => m_req m = false
  | Some g => forall i, (i < m_dim m)%nat -> limit g i (if m_req m then 1 else nth i (m_attr m) 0)
  end.
(** the target of the spring tends to y *)
Definition tracks (predict_fn : nat -> list (string * pval) -> R -> res R) (m : dmp) (y : list R) : Prop :=
  forall i eps, (i < m_dim m)%nat -> 0 < eps -> exists T, forall ts suppress r k,
    ana predict_fn m ts suppress = Ok r -> (k < length ts)%nat -> T <= nth k ts 0 ->
    Rabs (target m (gv (m_dim m) (a_xs r) k i) i - nth i y 0) < eps.
(** increasing times with steps between a and b, not starting before 0 *)
Definition steps (a b : R) (ts : list R) : Prop :=
  0 <= nth 0 ts 0 /\ forall k, (S k < length ts)%nat -> a <= nth (S k) ts 0 - nth k ts 0 <= b.
(** the spring is critically damped in dimension i if the damping coefficient is D, and overdamped steps
    of length b do not diverge *)
Definition critical (m : dmp) (i : nat) (D b : R) : Prop :=
  let K := par_val (d_spring (m_spring m)) i in
  let M := par_val (d_mass (m_spring m)) i in
  D * D = 4 * K * M /\ 0 < D / (M * m_tau m) /\ b * (D / (M * m_tau m)) < 4.
(** the damping coefficient is D, or tends to it if there is a damping system *)
Definition settles (m : dmp) (i : nat) (D : R) : Prop :=
  match m_damping m with None => par_val (d_damp (m_spring m)) i = D | Some s => limit s i D end.

(** ** Sequences of calls *)
(** calls which only compute something; each may change the object *)
Inductive call := CRate (x : list R) | CStart | CAna (ts : list R) (suppress : bool).
Inductive reply := AVec (xd : list R) | AStart (x xd : list R) | AAna (r : ana_result).
Definition reply1 (predict_fn : nat -> list (string * pval) -> R -> res R) (m : dmp) (c : call) : res (dmp * reply) :=
  match c with
  | CRate x => let* p := m_diffeq predict_fn m x in Ok (fst p, AVec (snd p))
  | CStart => let* p := m_start predict_fn m None in Ok (fst (fst p), AStart (snd (fst p)) (snd p))
  | CAna ts s => let* r := ana predict_fn m ts s in Ok (m, AAna r)
  end.
(** one after the other on one object, until one raises an exception *)
Fixpoint replies (predict_fn : nat -> list (string * pval) -> R -> res R) (m : dmp) (cs : list call) : list (res reply) :=
  match cs with
  | [] => []
  | c :: cs' => match reply1 predict_fn m c with
                | Err e => [Err e]
                | Ok (m', a) => Ok a :: replies predict_fn m' cs'
                end
  end.
(** each on an object in the original state *)
Fixpoint fresh_replies (predict_fn : nat -> list (string * pval) -> R -> res R) (m : dmp) (cs : list call) : list (res reply) :=
  match cs with
  | [] => []
  | c :: cs' => match reply1 predict_fn m c with
                | Err e => [Err e]
                | Ok (_, a) => Ok a :: fresh_replies predict_fn m cs'
                end
  end.

(** ** Histories of changes *)
Inductive change :=
| XTau (t : R) | XY0 (y : list R) | XAttr (y : list R) | XDecouple | XSelect (n : names) | XParams (v : list R)
| XTrain (t : traj) | XCall (c : call).
Definition apply1 (predict_fn : nat -> list (string * pval) -> R -> res R)
    (train_fn : nat -> list R -> list R -> res (list (string * pval))) (m : dmp) (c : change) : res dmp :=
  match c with
  | XTau t => set_tau m t
  | XY0 y => set_y0 m y
  | XAttr y => set_yattr m y
  | XDecouple => Ok (m_decouple m)
  | XSelect n => Ok (m_select m n)
  | XParams v => let '(m', r) := m_set_params m v in let* _ := r in Ok m'
  | XTrain t => m_train predict_fn train_fn m t
  | XCall c => let* p := reply1 predict_fn m c in Ok (fst p)
  end.
Fixpoint apply_all (predict_fn : nat -> list (string * pval) -> R -> res R)
    (train_fn : nat -> list R -> list R -> res (list (string * pval))) (m : dmp) (cs : list change) : res dmp :=
  match cs with
  | [] => Ok m
  | c :: cs' => let* m' := apply1 predict_fn train_fn m c in apply_all predict_fn train_fn m' cs'
  end.
(** what the caller has to respect: durations are not 0, and no start where the goal system cannot
    start *)
Definition allowed1 (m : dmp) (c : change) : Prop :=
  match c with
  | XTau t => t <> 0
  | XY0 y => goal_accepts m y
  | XTrain t => demo (m_dim m) t /\ last (tj_ts t) 0 <> 0 /\ goal_accepts m (nth 0 (mrows (tj_ys t)) [])
  | _ => True
  end.
Fixpoint allowed (predict_fn : nat -> list (string * pval) -> R -> res R)
    (train_fn : nat -> list R -> list R -> res (list (string * pval))) (m : dmp) (cs : list change) : Prop :=
  match cs with
  | [] => True
  | c :: cs' => allowed1 m c /\
                match apply1 predict_fn train_fn m c with
                | Ok m' => allowed predict_fn train_fn m' cs'
                | Err _ => True
                end
  end.
(** every duration that is set, also that of a demonstration, is positive *)
Definition forward (c : change) : Prop :=
  match c with XTau t => 0 < t | XTrain t => 0 < last (tj_ts t) 0 | _ => True end.
(** trained function approximators can predict: also with other parameter values, and after training *)
Definition predicts (predict_fn : nat -> list (string * pval) -> R -> res R)
    (train_fn : nat -> list R -> list R -> res (list (string * pval))) : Prop :=
  (forall i f v f' ph, (forall ph, exists r, predict_fn i (f_model f) ph = Ok r) -> fa_set f v = (f', Ok tt) ->
     exists r, predict_fn i (f_model f') ph = Ok r) /\
  (forall i phs ys ps ph, train_fn i phs ys = Ok ps -> exists r, predict_fn i ps ph = Ok r).
