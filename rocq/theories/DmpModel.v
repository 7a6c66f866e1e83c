(** Model of dmpbbo/dmps/Dmp.py (class Dmp) and dmpbbo/bbo_of_dmps/TaskSolverDmp.py.

    A DMP object owns its subsystems: they are distinct objects which nobody else modifies. Methods
    return the new object next to their result. What an object looks like after a method of this file
    raised an exception is modelled only for set_param_vector. *)
From Coq Require Import String.
From Verif Require Import Base DynModel ParamModel TrajModel.
Open Scope R_scope.

(** ** The subsystems: any first-order system of dynamicalsystems/. The sigmoid system is modelled
    without its cache (which is never stale, see C43). *)
Inductive sub := SubE (s : esys) | SubS (s : ssys) | SubR (s : rsys) | SubT (s : tsys).
Definition sub_init (s : sub) : list R :=
  match s with SubE s => e_init s | SubS s => g_init s | SubR s => h_init s | SubT s => t_init s end.
Definition sub_dim (s : sub) : nat := length (sub_init s).
Definition sub_tau (s : sub) : R :=
  match s with SubE s => e_tau s | SubS s => g_tau s | SubR s => h_tau s | SubT s => t_tau s end.
(** DynamicalSystem.py:59-65, SigmoidSystem.py:86-93 *)
Definition sub_set_tau (s : sub) (t : R) : sub :=
  match s with
  | SubE s => SubE (Esys t (e_init s) (e_attr s) (e_alpha s))
  | SubS s => SubS (Ssys t (g_init s) (g_rate s) (g_infl s))
  | SubR s => SubR (Rsys t (h_init s) (h_right s) (h_infl s) (h_alpha s) (h_v s) (h_left s))
  | SubT s => SubT (Tsys t (t_init s) (t_down s))
  end.
(** DynamicalSystem.py:112-123 for first-order systems: the state is y *)
Definition sub_set_y_init (s : sub) (y : list R) : res sub :=
  let* x := set_y_init (sub_dim s) (sub_dim s) y in
  Ok (match s with
      | SubE s => SubE (Esys (e_tau s) x (e_attr s) (e_alpha s))
      | SubS s => SubS (Ssys (g_tau s) x (g_rate s) (g_infl s))
      | SubR s => SubR (Rsys (h_tau s) x (h_right s) (h_infl s) (h_alpha s) (h_v s) (h_left s))
      | SubT s => SubT (Tsys (t_tau s) x (t_down s))
      end).
(** assignment to system.y_attr: a property of ExponentialSystem (ExponentialSystem.py:49-57); in the
    other first-order systems the assignment creates an attribute which no method reads *)
Definition sub_set_attr (s : sub) (y : list R) : res sub :=
  match s with
  | SubE e => if Nat.eqb (length y) (length (e_init e))
              then Ok (SubE (Esys (e_tau e) (e_init e) y (e_alpha e))) else Err ValueError
  | _ => Ok s
  end.
Definition sub_diffeq (s : sub) (x : list R) : res (list R) :=
  match s with SubE s => e_diffeq s x | SubS s => s_diffeq s x | SubR s => r_diffeq s x
             | SubT s => t_diffeq s x end.
Definition sub_ana (s : sub) (ts : list R) : res solution :=
  match s with SubE s => e_ana s ts | SubS s => s_ana s ts | SubR s => r_ana s ts | SubT s => t_ana s ts end.
Definition sub_decouple (s : sub) : sub :=
  match s with SubE s => SubE (e_decouple s) | SubS s => SubS (s_decouple s) | SubR s => SubR (r_decouple s)
             | SubT s => SubT s end.

(** the spring system: SpringDamperSystem.py:62-68, DynamicalSystem.py:59-65, 112-123 *)
Definition d_set_attr (s : dsys) (g : list R) : res dsys :=
  if Nat.eqb (length g) (d_dimy s)
  then Ok (Dsys (d_tau s) (d_init s) g (d_damp s) (d_spring s) (d_mass s) (d_dimy s)) else Err ValueError.
Definition d_set_damp (s : dsys) (p : param) : dsys :=
  Dsys (d_tau s) (d_init s) (d_attr s) p (d_spring s) (d_mass s) (d_dimy s).
Definition d_set_tau (s : dsys) (t : R) : dsys :=
  Dsys t (d_init s) (d_attr s) (d_damp s) (d_spring s) (d_mass s) (d_dimy s).
Definition d_set_y_init (s : dsys) (y : list R) : res dsys :=
  let* x := set_y_init (d_dimy s) (2 * d_dimy s) y in
  Ok (Dsys (d_tau s) x (d_attr s) (d_damp s) (d_spring s) (d_mass s) (d_dimy s)).

(** ** Dmp.py *)
Inductive fscaling := NoScaling | GMinusY0 | Amplitude.
(** [m_x_init] is _x_init of the base class. [m_y0] is the attribute _y_init, which the constructor
    does not set (None: reading it raises AttributeError). [m_req] is goal_system_requires_scaling. *)
Record dmp := Dmp {
  m_tau : R; m_dim : nat; m_x_init : list R; m_y0 : option (list R); m_attr : list R;
  m_fas : option (list fa); m_sel : list string;
  m_spring : dsys; m_goal : option sub; m_phase : sub; m_gating : sub; m_damping : option sub;
  m_req : bool; m_scaling : fscaling; m_amps : option (list R); m_ts_train : option (list R) }.

Definition upd_tau (m : dmp) t sp g p ga :=
  Dmp t (m_dim m) (m_x_init m) (m_y0 m) (m_attr m) (m_fas m) (m_sel m) sp g p ga (m_damping m) (m_req m)
      (m_scaling m) (m_amps m) (m_ts_train m).
Definition upd_y0 (m : dmp) y sp g :=
  Dmp (m_tau m) (m_dim m) (m_x_init m) (Some y) (m_attr m) (m_fas m) (m_sel m) sp g (m_phase m) (m_gating m)
      (m_damping m) (m_req m) (m_scaling m) (m_amps m) (m_ts_train m).
Definition upd_attr (m : dmp) y g :=
  Dmp (m_tau m) (m_dim m) (m_x_init m) (m_y0 m) y (m_fas m) (m_sel m) (m_spring m) g (m_phase m) (m_gating m)
      (m_damping m) (m_req m) (m_scaling m) (m_amps m) (m_ts_train m).
Definition upd_spring (m : dmp) sp g :=
  Dmp (m_tau m) (m_dim m) (m_x_init m) (m_y0 m) (m_attr m) (m_fas m) (m_sel m) sp g (m_phase m) (m_gating m)
      (m_damping m) (m_req m) (m_scaling m) (m_amps m) (m_ts_train m).
Definition upd_fas (m : dmp) fs :=
  Dmp (m_tau m) (m_dim m) (m_x_init m) (m_y0 m) (m_attr m) fs (m_sel m) (m_spring m) (m_goal m) (m_phase m)
      (m_gating m) (m_damping m) (m_req m) (m_scaling m) (m_amps m) (m_ts_train m).
Definition upd_sel (m : dmp) sel :=
  Dmp (m_tau m) (m_dim m) (m_x_init m) (m_y0 m) (m_attr m) (m_fas m) sel (m_spring m) (m_goal m) (m_phase m)
      (m_gating m) (m_damping m) (m_req m) (m_scaling m) (m_amps m) (m_ts_train m).
Definition upd_amps (m : dmp) a :=
  Dmp (m_tau m) (m_dim m) (m_x_init m) (m_y0 m) (m_attr m) (m_fas m) (m_sel m) (m_spring m) (m_goal m) (m_phase m)
      (m_gating m) (m_damping m) (m_req m) (m_scaling m) a (m_ts_train m).
Definition upd_ts (m : dmp) ts :=
  Dmp (m_tau m) (m_dim m) (m_x_init m) (m_y0 m) (m_attr m) (m_fas m) (m_sel m) (m_spring m) (m_goal m) (m_phase m)
      (m_gating m) (m_damping m) (m_req m) (m_scaling m) (m_amps m) ts.
Definition upd_sub (m : dmp) sp g da :=
  Dmp (m_tau m) (m_dim m) (m_x_init m) (m_y0 m) (m_attr m) (m_fas m) (m_sel m) sp g (m_phase m)
      (m_gating m) da (m_req m) (m_scaling m) (m_amps m) (m_ts_train m).

(** l.138-158, the index arrays: offset and length of each part of the state *)
Definition dim_x (m : dmp) : nat := (3 * m_dim m + 2 + m_dim m)%nat.
Definition d_goal (m : dmp) : nat := match m_goal m with Some g => sub_dim g | None => m_dim m end.
Definition ix_spring (m : dmp) : nat * nat := (0, 2 * m_dim m)%nat.
Definition ix_y (m : dmp) : nat * nat := (0, m_dim m)%nat.
Definition ix_z (m : dmp) : nat * nat := (m_dim m, m_dim m).
Definition ix_goal (m : dmp) : nat * nat := (m_dim m + m_dim m, d_goal m)%nat.
Definition ix_phase (m : dmp) : nat * nat := (m_dim m + m_dim m + d_goal m, 1)%nat.
Definition ix_gating (m : dmp) : nat * nat := (m_dim m + m_dim m + d_goal m + 1, 1)%nat.
Definition ix_damping (m : dmp) : nat * nat := (m_dim m + m_dim m + d_goal m + 1 + 1, m_dim m)%nat.
(** np.arange(offset, offset + n) *)
Definition indices (ix : nat * nat) : list nat := seq (fst ix) (snd ix).

(** x[ix] and x[ix] = v. Simplification: v has as many entries as ix, or one (broadcast). *)
Definition get_ix (ix : nat * nat) (x : list R) : res (list R) :=
  if Nat.leb (fst ix + snd ix) (length x) then Ok (firstn (snd ix) (skipn (fst ix) x)) else Err IndexError.
Definition fit (n : nat) (v : list R) : res (list R) :=
  if Nat.eqb (length v) n then Ok v
  else match v with [a] => Ok (repeat a n) | _ => Err ValueError end.
Definition put_ix (ix : nat * nat) (v x : list R) : res (list R) :=
  if Nat.leb (fst ix + snd ix) (length x) then
    let* w := fit (snd ix) v in
    Ok (firstn (fst ix) x ++ w ++ skipn (fst ix + snd ix) x)%list
  else Err IndexError.

(** l.43-158. [ty] is dmp_type; the kwargs of the constructor replace the default subsystems. *)
Inductive dmp_type := Ijspeert | Kulvicius | Countdown | Sct23 (no_scaling damping : bool).
Record dmp_kw := Kw {
  k_transf : option dsys; k_alpha : option param; k_phase : option sub; k_gating : option sub;
  k_goal : option (option sub); k_damping : option (option sub);
  k_scaling : option fscaling; k_amps : option (list R) }.
Definition no_kw : dmp_kw := Kw None None None None None None None None.
Definition opt {A} (o : option A) (d : A) : A := match o with Some a => a | None => d end.
(** np.full((n,), damping_coefficient) *)
Definition full (n : nat) (p : param) : res (list R) :=
  match p with PScal r => Ok (repeat r n) | PVec l => fit n l end.
(** l.72-132, the default goal, gating, phase and damping systems *)
Definition default_subs (ty : dmp_type) (tau : R) (y0 attr : list R) (sp : dsys)
  : res (option sub * sub * sub * option sub) :=
  let n := length y0 in
  match ty with
  | Ijspeert =>
    let s := SubE (Esys tau [1] [0] (PScal 4)) in Ok (None, s, s, None)
  | Kulvicius | Countdown =>
    let* ga := for_gating tau 0.1 1 in
    Ok (Some (SubE (Esys tau y0 attr (PScal 15))), SubS ga,
        SubT (new_time tau (match ty with Countdown => true | _ => false end)), None)
  | Sct23 ns damp =>
    let goal := if ns then Rsys tau y0 (PVec attr) (PScal 0.3) (PScal 10) (PScal 1) None
                else Rsys tau (repeat 0 n) (PVec (repeat 1 n)) (PScal 0.3) (PScal 10) (PScal 1) None in
    let* da := if damp then
                 let* final := full n (d_damp sp) in
                 Ok (Some (SubE (Esys tau (map (Rmult 0.1) final) final (PScal 4))))
               else Ok None in
    Ok (Some (SubR goal), SubR (Rsys tau [1] (PVec [0]) (PScal 1) (PScal 10) (PScal 10) None),
        SubT (new_time tau true), da)
  end.
Definition requires_scaling (ty : dmp_type) : bool :=
  match ty with Sct23 ns _ => negb ns | _ => false end.
Definition new_dmp (ty : dmp_type) (tau : R) (y0 attr : list R) (fas : option (list fa)) (kw : dmp_kw) : res dmp :=
  let n := length y0 in
  let sp := opt (k_transf kw) (new_spring tau y0 attr (opt (k_alpha kw) (PScal 20)) None (PScal 1)) in
  let* c := default_subs ty tau y0 attr sp in
  let '(go, ga, ph, da) := c in
  Ok (Dmp tau n (pad (3 * n + 2 + n) y0) None attr fas [] sp (opt (k_goal kw) go) (opt (k_phase kw) ph)
          (opt (k_gating kw) ga) (opt (k_damping kw) da) (requires_scaling ty) (opt (k_scaling kw) NoScaling)
          (k_amps kw) None).

(** l.187-191 *)
Definition y0_of (m : dmp) : res (list R) := match m_y0 m with Some y => Ok y | None => Err AttributeError end.
Definition scale_goal (m : dmp) (x : list R) : res (list R) :=
  if m_req m then
    let* y0 := y0_of m in
    let* d := vop Rminus (m_attr m) y0 in
    let* p := vop Rmult d x in
    vop Rplus y0 p
  else Ok x.

(** l.568-584 *)
Definition set_tau (m : dmp) (t : R) : res dmp :=
  if Req_EM_T (m_tau m) 0 then Err ZeroDivisionError else
  let c := t / m_tau m in
  let scale s := sub_set_tau s (sub_tau s * c) in
  Ok (upd_tau m t (d_set_tau (m_spring m) (d_tau (m_spring m) * c)) (option_map scale (m_goal m))
              (scale (m_phase m)) (scale (m_gating m))).
(** l.586-600 *)
Definition set_y0 (m : dmp) (y : list R) : res dmp :=
  if Nat.eqb (length y) (m_dim m) then
    let* sp := d_set_y_init (m_spring m) y in
    let* g := match m_goal m with
              | Some g => if m_req m then Ok (Some g) else let* g' := sub_set_y_init g y in Ok (Some g')
              | None => Ok None
              end in
    Ok (upd_y0 m y sp g)
  else Err ValueError.
(** the getter inherited from DynamicalSystem (l.586: DynamicalSystem.y_init.setter) *)
Definition get_y0 (m : dmp) : list R := get_y_init (m_dim m) (m_x_init m).
(** l.608-618 *)
Definition goal_attr (m : dmp) (y : list R) : res (option sub) :=
  match m_goal m with
  | Some g => if m_req m then Ok (Some g) else let* g' := sub_set_attr g y in Ok (Some g')
  | None => Ok None
  end.
Definition set_yattr (m : dmp) (y : list R) : res dmp :=
  if Nat.eqb (length y) (m_dim m) then let* g := goal_attr m y in Ok (upd_attr m y g) else Err ValueError.
(** l.632-637 *)
Definition m_decouple (m : dmp) : dmp :=
  upd_sub m (d_decouple (m_spring m)) (option_map sub_decouple (m_goal m)) (option_map sub_decouple (m_damping m)).

(** parameter vectors, l.639-718: see ParamModel *)
Definition pdmp_of (m : dmp) : pdmp := Pdmp (m_fas m) (m_sel m) (m_attr m) (m_dim m).
Definition m_select (m : dmp) (n : names) : dmp :=
  let p := dmp_select (pdmp_of m) n in upd_sel (upd_fas m (p_fas p)) (p_sel p).
Definition m_get_params (m : dmp) : res (list R) := dmp_get (pdmp_of m).
(** l.690-704; the goal part goes through the y_attr setter *)
Definition m_set_params (m : dmp) (v : list R) : dmp * res unit :=
  let '(p, r) := dmp_set (pdmp_of m) v in
  let m' := upd_fas m (p_fas p) in
  match r with
  | Err e => (m', Err e)
  | Ok _ => if mem "goal" (m_sel m) then
              match goal_attr m' (p_attr p) with
              | Ok g => (upd_attr m' (p_attr p) g, Ok tt)
              | Err e => (m', Err e)
              end
            else (m', Ok tt)
  end.

Section Predict.
(** the prediction of the i-th function approximator (_predict) for one phase value, from its model
    parameters. Simplification: the predictions for a phase signal are computed one by one. *)
Variable predict_fn : nat -> list (string * pval) -> R -> res R.

(** l.300-313, one row *)
Definition predictions (m : dmp) (phase : R) : res (list R) :=
  match fas_of (pdmp_of m) with
  | [] => Ok (repeat 0 (m_dim m))
  | fs => mapM (fun i => let* f := nth_res fs i in
                         if is_trained f then predict_fn i (f_model f) phase else Ok 0) (seq 0 (m_dim m))
  end.
(** l.281-291 and 352-361 (factors for the forcing term). Without amplitudes differential_equation
    raises ValueError, analytical_solution TypeError. *)
Definition factors (m : dmp) (e : exn) : res (list R) :=
  match m_scaling m with
  | NoScaling => Ok (repeat 1 (m_dim m))
  | GMinusY0 => let* y0 := y0_of m in let* d := vop Rminus (m_attr m) y0 in fit (m_dim m) d
  | Amplitude => match m_amps m with None => Err e | Some a => fit (m_dim m) a end
  end.
(** gating * predictions * factors *)
Definition forcing (fac fa : list R) (gating : R) : list R := map2 (fun f c => f * gating * c) fa fac.
Definition one (x : list R) : res R := match x with [v] => Ok v | _ => Err Unmodelled end.
(** zd + f / tau *)
Definition add_forcing (tau : R) (n : nat) (f xd : list R) : res (list R) :=
  if Req_EM_T tau 0 then Err NonFinite else
  Ok (firstn n xd ++ map2 (fun z f => z + f / tau) (skipn n xd) f)%list.

(** l.238-298 *)
Definition m_diffeq (m : dmp) (x : list R) : res (dmp * list R) :=
  let n := m_dim m in
  let xd := repeat 0 (length x) in
  let* c1 :=
    match m_goal m with
    | None => let* sp := d_set_attr (m_spring m) (m_attr m) in Ok (sp, None, repeat 0 n)
    | Some g =>
      let* g1 := sub_set_attr g (m_attr m) in
      let* xg := get_ix (ix_goal m) x in
      let* xdg := sub_diffeq g1 xg in
      let* target := scale_goal m xg in
      let* sp := d_set_attr (m_spring m) target in
      Ok (sp, Some g1, xdg)
    end in
  let '(sp1, goal1, xd_goal) := c1 in
  let* xd := put_ix (ix_goal m) xd_goal xd in
  let* c2 :=
    match m_damping m with
    | None => Ok (sp1, repeat 0 n)
    | Some ds => let* xda := get_ix (ix_damping m) x in
                 let* xdd := sub_diffeq ds xda in
                 Ok (d_set_damp sp1 (PVec xda), xdd)
    end in
  let '(sp2, xd_damp) := c2 in
  let* xd := put_ix (ix_damping m) xd_damp xd in
  let* xs := get_ix (ix_spring m) x in
  let* xds := d_diffeq sp2 xs in
  let* xp := get_ix (ix_phase m) x in
  let* xdp := sub_diffeq (m_phase m) xp in
  let* xd := put_ix (ix_phase m) xdp xd in
  let* xga := get_ix (ix_gating m) x in
  let* xdga := sub_diffeq (m_gating m) xga in
  let* xd := put_ix (ix_gating m) xdga xd in
  let* ph := one xp in
  let* ga := one xga in
  let* fa := predictions m ph in
  let* fac := factors m ValueError in
  let* xds := add_forcing (m_tau m) n (forcing fac fa ga) xds in
  let* xd := put_ix (ix_spring m) xds xd in
  Ok (upd_spring m sp2 goal1, xd).

(** l.193-236; integrate_start(y_init) tests the truth value of an array, which raises ValueError
    unless it has one element *)
Definition m_start (m : dmp) (y : option (list R)) : res (dmp * list R * list R) :=
  let n := m_dim m in
  let* m :=
    match y with
    | None => Ok m
    | Some [v] => if Req_EM_T v 0 then Ok m else set_y0 m [v]
    | Some _ => Err ValueError
    end in
  let x := repeat 0 (dim_x m) in
  let* g0 := match m_goal m with
             | None => Ok (m_attr m)
             | Some g => let* _ := sub_diffeq g (sub_init g) in Ok (sub_init g)
             end in
  let* x := put_ix (ix_goal m) g0 x in
  let* xg := get_ix (ix_goal m) x in
  let* target := scale_goal m xg in
  let* sp := d_set_attr (m_spring m) target in
  let* c := match m_damping m with
            | None => let* full_damp := full n (d_damp sp) in
                      let* x := put_ix (ix_damping m) full_damp x in Ok (x, sp)
            | Some ds => let* _ := sub_diffeq ds (sub_init ds) in
                         let* x := put_ix (ix_damping m) (sub_init ds) x in
                         let* xda := get_ix (ix_damping m) x in
                         Ok (x, d_set_damp sp (PVec xda))
            end in
  let '(x, sp) := c in
  let* _ := d_diffeq sp (d_init sp) in
  let* x := put_ix (ix_spring m) (d_init sp) x in
  let* _ := sub_diffeq (m_phase m) (sub_init (m_phase m)) in
  let* x := put_ix (ix_phase m) (sub_init (m_phase m)) x in
  let* _ := sub_diffeq (m_gating m) (sub_init (m_gating m)) in
  let* x := put_ix (ix_gating m) (sub_init (m_gating m)) x in
  let* r := m_diffeq (upd_spring m sp (m_goal m)) x in
  Ok (fst r, x, snd r).

(** what analytical_solution knows about one time step before integrating the spring system *)
Record drive := Drive { v_t : R; v_goal : list R; v_damp : list R; v_forcing : list R }.

(** l.415-421, the first time step *)
Definition spring_at (m : dmp) (sp : dsys) (target : list R) (dp : param) (x f : list R) : res (list R) :=
  let* sp1 := d_set_attr sp target in
  let* xd := d_diffeq (d_set_damp sp1 dp) x in
  add_forcing (m_tau m) (m_dim m) f xd.
(** l.419-437, the remaining time steps, given the previous time, state and rate of change *)
Fixpoint spring_loop (m : dmp) (sp : dsys) (t : R) (x xd : list R) (ds : list drive)
  : res (list (list R * list R)) :=
  match ds with
  | [] => Ok []
  | d :: ds' =>
    let* x' := vop Rplus x (map (Rmult (v_t d - t)) xd) in
    let* target := scale_goal m (v_goal d) in
    let* dp := fit (m_dim m) (v_damp d) in
    let* xd1 := spring_at m sp target (PVec dp) x' (v_forcing d) in
    let* yd := vdiv (skipn (m_dim m) x') (m_tau m) in
    let xd' := (yd ++ skipn (m_dim m) xd1)%list in
    let* rest := spring_loop m sp (v_t d) x' xd' ds' in
    Ok ((x', xd') :: rest)
  end.
(** l.386-437 *)
Definition spring_rows (m : dmp) (ds : list drive) : res (list (list R * list R)) :=
  match ds with
  | [] => Err IndexError
  | d :: ds' =>
    let sp := m_spring m in
    let* target := scale_goal m (v_goal d) in
    let dp := match v_damp d with [r] => PScal r | l => PVec l end in
    let x := d_init sp in
    let* xd := spring_at m sp target dp x (v_forcing d) in
    let* rest := spring_loop m sp (v_t d) x xd ds' in
    Ok ((x, xd) :: rest)
  end.
(** one row of xs or xds: l.381-391 and l.412-413 *)
Definition row (m : dmp) (sp goal phase gating damp : list R) : res (list R) :=
  let x := repeat 0 (dim_x m) in
  let* x := put_ix (ix_goal m) goal x in
  let* x := put_ix (ix_phase m) phase x in
  let* x := put_ix (ix_gating m) gating x in
  let* x := put_ix (ix_damping m) damp x in
  put_ix (ix_spring m) sp x.
Fixpoint rows5 (m : dmp) (sp goal phase gating damp : list (list R)) : res (list (list R)) :=
  match sp, goal, phase, gating, damp with
  | a :: sp', b :: goal', c :: phase', d :: gating', e :: damp' =>
    let* r := row m a b c d e in let* rs := rows5 m sp' goal' phase' gating' damp' in Ok (r :: rs)
  | _, _, _, _, _ => Ok []
  end.

Record ana_result := Ana { a_xs : list (list R); a_xds : list (list R); a_forcing : list (list R);
                           a_fa : list (list R) }.
Fixpoint drives (ts : list R) (gs ds fs : list (list R)) : list drive :=
  match ts, gs, ds, fs with
  | t :: ts', g :: gs', d :: ds', f :: fs' => Drive t g d f :: drives ts' gs' ds' fs'
  | _, _, _, _ => []
  end.
(** np.tile(damping_coefficient, (n_time_steps, 1)) *)
Definition damp_row (p : param) : list R := match p with PScal r => [r] | PVec l => l end.
(** l.315-439 for given times *)
Definition ana (m : dmp) (ts : list R) (suppress : bool) : res ana_result :=
  let* (xs_phase, xds_phase) := sub_ana (m_phase m) ts in
  let* (xs_gating, xds_gating) := sub_ana (m_gating m) ts in
  let* phs := mapM one xs_phase in
  let* gas := mapM one xs_gating in
  let* fas := mapM (predictions m) phs in
  let fas := if suppress then map (fun _ => repeat 0 (m_dim m)) fas else fas in
  let* fac := factors m TypeError in
  let fts := map2 (forcing fac) fas gas in
  let* (xs_goal, xds_goal) :=
    match m_goal m with
    | None => Ok (map (fun _ => m_attr m) ts, map (fun _ => repeat 0 (length (m_attr m))) ts)
    | Some g => sub_ana g ts
    end in
  let* (xs_damp, xds_damp) :=
    match m_damping m with
    | None => let p := damp_row (d_damp (m_spring m)) in
              Ok (map (fun _ => p) ts, map (fun _ => repeat 0 (length p)) ts)
    | Some ds => sub_ana ds ts
    end in
  let* sps := spring_rows m (drives ts xs_goal xs_damp fts) in
  let* xs := rows5 m (map fst sps) xs_goal xs_phase xs_gating xs_damp in
  let* xds := rows5 m (map snd sps) xds_goal xds_phase xds_gating xds_damp in
  Ok (Ana xs xds fts fas).
(** l.325-331, with the optional argument *)
Definition m_ana (m : dmp) (ts : option (list R)) (suppress : bool) : res ana_result :=
  match ts with
  | Some ts => ana m ts suppress
  | None => match m_ts_train m with Some ts => ana m ts suppress | None => Err ValueError end
  end.

(** l.546-566, states_as_trajectory: the four matrices passed to Trajectory *)
Definition states_as_rows (m : dmp) (xs xds : list (list R)) : res (list (list R * list R * list R)) :=
  mapM (fun p => let* y := get_ix (ix_y m) (fst p) in
                 let* yd := get_ix (ix_y m) (snd p) in
                 let* zd := get_ix (ix_z m) (snd p) in
                 let* ydd := vdiv zd (m_tau m) in
                 Ok (y, yd, ydd)) (combine xs xds).

(** division of a row by factors, with the numpy result nan or inf for 0 *)
Definition div_row (a b : list R) : res (list R) :=
  if existsb (fun c => if Req_EM_T c 0 then true else false) b then Err NonFinite else vop Rdiv a b.
(** l.476-536: inputs and targets. Simplification: zero time steps are an error anyway. *)
Definition targets (m : dmp) (t : traj) : res (list R * list (list R)) :=
  if Nat.eqb (m_dim m) (tj_dim t) then
    let* r := ana m (tj_ts t) false in
    let* goals := mapM (fun x => let* g := get_ix (ix_goal m) x in scale_goal m g) (a_xs r) in
    let* gats := mapM (fun x => let* g := get_ix (ix_gating m) x in one g) (a_xs r) in
    let* phs := mapM (fun x => let* g := get_ix (ix_phase m) x in one g) (a_xs r) in
    let* damps := mapM (get_ix (ix_damping m)) (a_xs r) in
    let sp := m_spring m in
    let tau := m_tau m in
    let* fac := factors m TypeError in
    let* rows :=
      mapM (fun k =>
        let* y := nth_res (mrows (tj_ys t)) k in
        let* yd := nth_res (mrows (tj_yds t)) k in
        let* ydd := nth_res (mrows (tj_ydds t)) k in
        let* g := nth_res goals k in
        let* ga := nth_res gats k in
        let* dr := nth_res damps k in
        let* e := vop Rminus y g in
        let* ke := pop Rmult (d_spring sp) e in
        let* de := pop Rmult (match m_damping m with Some _ => PVec dr | None => d_damp sp end)
                             (map (Rmult tau) yd) in
        let* s := vop Rplus ke de in
        let* mass := full (length s) (d_mass sp) in
        let* sm := div_row s mass in
        let* f := vop Rplus (map (Rmult (tau * tau)) ydd) sm in
        if Req_EM_T ga 0 then Err NonFinite else
        div_row (map (fun v => v / ga) f) fac) (seq 0 (length (tj_ts t))) in
    Ok (phs, rows)
  else Err ValueError.

(** l.441-474. [train_fn i] is train of the i-th function approximator. Python's trajectory.ts[-1],
    ys[0, :] and ys[-1, :] raise IndexError on an empty trajectory. The keyword argument
    function_approximators is not modelled. *)
Variable train_fn : nat -> list R -> list R -> res (list (string * pval)).
Definition last_res {A} (l : list A) : res A := nth_res l (length l - 1).
Definition m_train (m : dmp) (t : traj) : res dmp :=
  let* tau := last_res (tj_ts t) in
  let* m := set_tau m tau in
  let* y0 := nth_res (mrows (tj_ys t)) 0 in
  let* m := set_y0 m y0 in
  let* yN := last_res (mrows (tj_ys t)) in
  let* m := set_yattr m yN in
  let* amps := get_range_per_dim t in
  let m := upd_amps m (Some amps) in
  let* m :=
    match m_fas m with
    | None => Ok m
    | Some fs =>
      let* pt := targets m t in
      let* trained :=
        mapM (fun i => let* f := nth_res fs i in
                       let* ps := train_fn i (fst pt) (col i (snd pt)) in
                       Ok (Fa ps (Some 1%nat) (f_sel f))) (seq 0 (m_dim m)) in
      Ok (upd_fas m (Some (trained ++ skipn (m_dim m) fs)%list))
    end in
  Ok (upd_ts m (Some (tj_ts t))).
(** l.160-180 *)
Definition from_traj (ty : dmp_type) (t : traj) (fas : option (list fa)) (kw : dmp_kw) : res dmp :=
  let* tau := last_res (tj_ts t) in
  let* y0 := nth_res (mrows (tj_ys t)) 0 in
  let* yN := last_res (mrows (tj_ys t)) in
  let* m := new_dmp ty tau y0 yN fas kw in
  m_train m t.

(** ** TaskSolverDmp.py *)
(** l.30-34; copy.deepcopy: the solver owns its DMP *)
Record solver := Solver { o_dmp : dmp; o_time : R; o_n : Z }.
Definition new_solver (m : dmp) (dt factor : R) : res solver :=
  let time := m_tau m * factor in
  if Req_EM_T dt 0 then Err NonFinite else
  Ok (Solver m time (Int_part (time / dt) + 1)).
(** np.linspace(0.0, T, n); n < 0 raises ValueError *)
Definition linspace0 (T : R) (n : Z) : res (list R) :=
  if (n <? 0)%Z then Err ValueError else
  Ok (match Z.to_nat n with
      | 1%nat => [0]
      | k => map (fun i => T * INR i / (IZR n - 1)) (seq 0 k)
      end).
(** l.36-52: times, positions, velocities and accelerations *)
Definition rollout_dmp (s : solver) (m : dmp) : res (list (R * (list R * list R * list R))) :=
  let* ts := linspace0 (o_time s) (o_n s) in
  let* r := ana m ts false in
  let* rows := states_as_rows m (a_xs r) (a_xds r) in
  Ok (combine ts rows).
(** l.54-61 *)
Definition rollout (s : solver) (sample : list R)
  : solver * res (list (R * (list R * list R * list R))) :=
  let '(m, r) := m_set_params (o_dmp s) sample in
  let s' := Solver m (o_time s) (o_n s) in
  match r with
  | Err e => (s', Err e)
  | Ok _ => (s', rollout_dmp s' m)
  end.
(** a history of rollouts *)
Fixpoint rollouts (s : solver) (samples : list (list R)) : solver :=
  match samples with
  | [] => s
  | x :: xs => rollouts (fst (rollout s x)) xs
  end.
End Predict.
