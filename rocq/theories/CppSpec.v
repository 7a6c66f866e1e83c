(** Specification vocabulary for the C++ counterpart of DMPs. *)
From Coq Require Import String.
From Verif Require Import Base DynModel ParamModel FaModel TrajModel DmpModel DmpSpec CppModel.
Open Scope string_scope.
Open Scope R_scope.

(** ** Which DMPs the C++ program can read *)
(** phase and gating systems: one of the three classes C++ knows, with scalar parameters *)
Definition sub_portable (s : sub) : Prop :=
  match s with
  | SubE e => length (e_attr e) = length (e_init e) /\ exists a, e_alpha e = PScal a
  | SubS g => exists r q, g_rate g = PScal r /\ g_infl g = PScal q
  | SubR _ => False
  | SubT t => t_init t = [if t_down t then 1 else 0]
  end.
(** the parameter [name] is an array with n rows and one column *)
Definition is_column (ps : list (string * pval)) (n : nat) (name : string) : Prop :=
  exists l, lookup ps name = Some (PArr (Arr [n; 1%nat] l)) /\ length l = n.
(** a trained function approximator for a phase, of a class that C++ knows *)
Definition fa_portable (k : fa_kind) (f : fa) : Prop :=
  is_trained f = true /\ exists n, (0 < n)%nat /\
  match k with
  | KRbfn => Forall (is_column (f_model f) n) ["centers"; "widths"; "weights"]
  | KLwr => Forall (is_column (f_model f) n) ["centers"; "widths"; "slopes"; "offsets"]
  | KOther => False
  end.
(** DMPs: with exponential goal system, critically damped spring with mass 1, without damping system,
    with trained function approximators and an initial state that has been set *)
Definition portable (kinds : nat -> fa_kind) (m : dmp) : Prop :=
  let n := m_dim m in
  let sp := m_spring m in
  length (m_attr m) = n /\ m_req m = false /\ m_damping m = None /\
  (exists y0, m_y0 m = Some y0 /\ length y0 = n /\ d_init sp = (y0 ++ repeat 0 n)%list /\
     exists t a al, m_goal m = Some (SubE (Esys t y0 a (PScal al))) /\ length a = n) /\
  d_dimy sp = n /\ d_tau sp = m_tau m /\
  (exists d, d_damp sp = PScal d /\ d_spring sp = PScal (d * d / 4)) /\ d_mass sp = PScal 1 /\
  sub_portable (m_phase m) /\ sub_portable (m_gating m) /\
  (m_scaling m = Amplitude -> exists a, m_amps m = Some a /\ length a = n) /\
  exists fs, m_fas m = Some fs /\ (n <= length fs)%nat /\
    forall i f, nth_error fs i = Some f -> (i < n)%nat -> fa_portable (kinds i) f.

(** all subsystems have the duration of the DMP *)
Definition uniform (m : dmp) : Prop :=
  sub_tau (m_phase m) = m_tau m /\ sub_tau (m_gating m) = m_tau m /\
  match m_goal m with Some g => sub_tau g = m_tau m | None => True end.

(** training of the function approximators of a DMP: number of basis functions, height of their
    intersections and regularization, for each dimension *)
Definition trainer (kinds : nat -> fa_kind) (ns : nat -> nat) (h lam : nat -> R) (i : nat) (phases targets : list R)
  : res (list (string * pval)) :=
  let inputs := Mat 1 (map (fun x => [x]) phases) in
  match kinds i with
  | KRbfn => rbfn_train exp [ns i] (h i) (lam i) (In1 targets) inputs
  | KLwr => lwr_train exp [ns i] (h i) (lam i) (In1 targets) inputs
  | KOther => Err Unmodelled
  end.
(** arguments of the constructor: the default subsystems, and damping with a number *)
Definition plain_kw (kw : dmp_kw) : Prop :=
  k_transf kw = None /\ k_phase kw = None /\ k_gating kw = None /\ k_goal kw = None /\ k_damping kw = None /\
  exists d, opt (k_alpha kw) (PScal 20) = PScal d.

(** times in order *)
Definition in_order (ts : list R) : Prop := forall i j, (i <= j < length ts)%nat -> nth i ts 0 <= nth j ts 0.

(** ** What both programs answer *)
(** the part of a state that both programs have: position, velocity, goal, phase and gating *)
Definition visible (n : nat) (x : list R) : list R := firstn (3 * n + 2) x.

Section Calls.
Variable ex : R -> R.
Variable kinds : nat -> fa_kind.
Notation pf := (py_predict ex kinds).

Inductive ccall :=
| QRate (x : list R) | QStart | QAna (ts : list R) | QEuler (dt : R) (x : list R) | QRk (dt : R) (x : list R)
| QState (x xd : list R) | QTau (t : R) | QY0 (y : list R) | QAttr (y : list R).
Inductive creply :=
| ADone | ARate (xd : list R) | APair (x xd : list R) | AState (y yd ydd : list R)
| ASol (xs xds fts fas : list (list R)).

(** the Python program (Dmp.py), which reports what C++ has as well. The steps are those of
    DynamicalSystem.py:166-203. *)
Definition py_rate (m : dmp) (x : list R) : res (list R) := let* p := m_diffeq pf m x in Ok (snd p).
Definition py_call (m : dmp) (c : ccall) : res (dmp * creply) :=
  let v := visible (m_dim m) in
  match c with
  | QRate x => let* p := m_diffeq pf m x in Ok (fst p, ARate (v (snd p)))
  | QStart => let* p := m_start pf m None in Ok (fst (fst p), APair (v (snd (fst p))) (v (snd p)))
  | QAna ts => let* r := ana pf m ts false in Ok (m, ASol (map v (a_xs r)) (map v (a_xds r)) (a_forcing r) (a_fa r))
  | QEuler dt x => let* p := step_euler (py_rate m) (dim_x m) dt x in Ok (m, APair (v (fst p)) (v (snd p)))
  | QRk dt x => let* p := step_rk (py_rate m) (dim_x m) dt x in Ok (m, APair (v (fst p)) (v (snd p)))
  | QState x xd => let* l := states_as_rows m [x] [xd] in
                   match l with [(y, yd, ydd)] => Ok (m, AState y yd ydd) | _ => Err Unmodelled end
  | QTau t => let* m' := set_tau m t in Ok (m', ADone)
  | QY0 y => let* m' := set_y0 m y in Ok (m', ADone)
  | QAttr y => let* m' := set_yattr m y in Ok (m', ADone)
  end.
(** the C++ program, which gets the visible part of the states. Matrices passed to
    analyticalSolution are empty. *)
Definition cpp_call (c : cdmp) (q : ccall) : res (cdmp * creply) :=
  let v := visible (cdim c) in
  match q with
  | QRate x => let* p := c_diffeq ex c (v x) in Ok (fst p, ARate (snd p))
  | QStart => let* p := c_start ex c in Ok (fst (fst p), APair (snd (fst p)) (snd p))
  | QAna ts => let* r := c_ana ex c (0, 0)%nat ts in
               let '(xs, xds, fts, fas) := r in Ok (c, ASol xs xds fts fas)
  | QEuler dt x => let* p := c_euler ex c dt (v x) in Ok (c, APair (fst p) (snd p))
  | QRk dt x => let* p := c_rk ex c dt (v x) in Ok (c, APair (fst p) (snd p))
  | QState x xd => let* p := c_pos_vel_acc c (v x) (v xd) in Ok (c, AState (fst (fst p)) (snd (fst p)) (snd p))
  | QTau t => let* c' := c_set_tau c t in Ok (c', ADone)
  | QY0 y => let* c' := c_set_y0 c y in Ok (c', ADone)
  | QAttr y => let* c' := c_set_attr c y in Ok (c', ADone)
  end.
(** one call after the other, until one fails *)
Fixpoint run {A} (step : A -> ccall -> res (A * creply)) (a : A) (qs : list ccall) : list (res creply) :=
  match qs with
  | [] => []
  | q :: qs' => match step a q with
                | Err e => [Err e]
                | Ok (a', r) => Ok r :: run step a' qs'
                end
  end.
End Calls.

(** calls as the C++ program expects them; n is the number of dimensions *)
Definition proper (n : nat) (q : ccall) : Prop :=
  match q with
  | QRate x => length x = (4 * n + 2)%nat
  | QStart => True
  | QAna ts => ts <> [] /\ in_order ts
  | QEuler dt x | QRk dt x => 0 < dt /\ length x = (4 * n + 2)%nat
  | QState x xd => length x = (4 * n + 2)%nat /\ length xd = (4 * n + 2)%nat
  | QTau t => 0 < t
  | QY0 y | QAttr y => length y = n
  end.

(** ** DMPs with another spring constant, mass and damping system *)
Definition replaced (m : dmp) (k mass : param) (da : option sub) : dmp :=
  let sp := m_spring m in
  Dmp (m_tau m) (m_dim m) (m_x_init m) (m_y0 m) (m_attr m) (m_fas m) (m_sel m)
      (Dsys (d_tau sp) (d_init sp) (d_attr sp) (d_damp sp) k mass (d_dimy sp)) (m_goal m) (m_phase m) (m_gating m) da
      (m_req m) (m_scaling m) (m_amps m) (m_ts_train m).
