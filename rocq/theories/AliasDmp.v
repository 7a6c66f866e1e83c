(** DMPs as a class with shared arrays. *)
From Coq Require Import String.
From Verif Require Import Base DynModel ParamModel TrajModel DmpModel IntModel AliasModel AliasDyn AliasFa.
Open Scope R_scope.

(** ** attributes which are arrays: _x_init, _y_init, _y_attr, the attractor of the spring system, the initial
    state and the attractor of the goal system, _scaling_amplitudes, _ts_train, the damping coefficient of the
    spring system if it is an array, and the model parameters of the function approximators. The other arrays
    of the subsystems are made by the constructors and never given away. *)
Definition opt_list (o : option (list R)) : list R := match o with Some l => l | None => [] end.
Definition opt_put (v : list R) (o : option (list R)) : option (list R) := match o with Some _ => Some v | None => None end.
Definition sub_attr (g : option sub) : list R :=
  match g with Some (SubE e) => e_attr e | Some (SubR s) => pget (h_right s) | _ => [] end.
Definition sub_put_attr (v : list R) (g : option sub) : option sub :=
  match g with
  | Some (SubE e) => Some (SubE (Esys (e_tau e) (e_init e) v (e_alpha e)))
  | Some (SubR s) => Some (SubR (Rsys (h_tau s) (h_init s) (pput v (h_right s)) (h_infl s) (h_alpha s) (h_v s) (h_left s)))
  | g => g
  end.
Definition sub_start (g : option sub) : list R := match g with Some g => sub_init g | None => [] end.
Definition sub_put_start (v : list R) (g : option sub) : option sub :=
  match g with
  | Some (SubE e) => Some (SubE (Esys (e_tau e) v (e_attr e) (e_alpha e)))
  | Some (SubS s) => Some (SubS (Ssys (g_tau s) v (g_rate s) (g_infl s)))
  | Some (SubR s) => Some (SubR (Rsys (h_tau s) v (h_right s) (h_infl s) (h_alpha s) (h_v s) (h_left s)))
  | Some (SubT s) => Some (SubT (Tsys (t_tau s) v (t_down s)))
  | None => None
  end.
Definition m_arrays (m : dmp) : list (list R) := fas_arrays (fas_of (pdmp_of m)).
Definition m_nf (m : dmp) : nat := (9 + length (m_arrays m))%nat.
Definition m_get (f : nat) (m : dmp) : list R :=
  match f with
  | 0 => m_x_init m | 1 => opt_list (m_y0 m) | 2 => m_attr m | 3 => d_attr (m_spring m)
  | 4 => sub_start (m_goal m) | 5 => sub_attr (m_goal m) | 6 => opt_list (m_amps m) | 7 => opt_list (m_ts_train m)
  | 8 => pget (d_damp (m_spring m)) | _ => nth (f - 9) (m_arrays m) []
  end%nat.
Definition upd_x (m : dmp) x :=
  Dmp (m_tau m) (m_dim m) x (m_y0 m) (m_attr m) (m_fas m) (m_sel m) (m_spring m) (m_goal m) (m_phase m) (m_gating m)
      (m_damping m) (m_req m) (m_scaling m) (m_amps m) (m_ts_train m).
Definition upd_y (m : dmp) y :=
  Dmp (m_tau m) (m_dim m) (m_x_init m) y (m_attr m) (m_fas m) (m_sel m) (m_spring m) (m_goal m) (m_phase m) (m_gating m)
      (m_damping m) (m_req m) (m_scaling m) (m_amps m) (m_ts_train m).
Definition m_put (f : nat) (v : list R) (m : dmp) : dmp :=
  let s := m_spring m in
  match f with
  | 0 => upd_x m v
  | 1 => upd_y m (opt_put v (m_y0 m))
  | 2 => upd_attr m v (m_goal m)
  | 3 => upd_spring m (Dsys (d_tau s) (d_init s) v (d_damp s) (d_spring s) (d_mass s) (d_dimy s)) (m_goal m)
  | 4 => upd_spring m s (sub_put_start v (m_goal m))
  | 5 => upd_spring m s (sub_put_attr v (m_goal m))
  | 6 => upd_amps m (opt_put v (m_amps m))
  | 7 => upd_ts m (opt_put v (m_ts_train m))
  | 8 => upd_spring m (Dsys (d_tau s) (d_init s) (d_attr s) (pput v (d_damp s)) (d_spring s) (d_mass s) (d_dimy s)) (m_goal m)
  | _ => upd_fas m (option_map (fas_put (f - 9) v) (m_fas m))
  end%nat.

Section Dmp.
Variable predict_fn : nat -> list (string * pval) -> R -> res R.
Variable train_fn : nat -> list R -> list R -> res (list (string * pval)).

(** ** methods *)
Inductive m_call :=
  | MSetTau (t : R) | MSetY | MSetAttr | MGetX | MGetY | MGetAttr | MGetTs | MDecouple
  | MSelect (n : names) | MGetParams | MSetParams
  | MDiffeq | MStart | MStep (me : int_method) (dt : R) | MIntegrate (me : int_method)
  | MSolve (suppress : bool) | MSolveTrain (suppress : bool) | MTrain.
(** rows of n numbers *)
Fixpoint chop (fuel n : nat) (l : list R) : list (list R) :=
  match fuel with
  | O => []
  | S fuel' => match l with [] => [] | _ => firstn n l :: chop fuel' n (skipn n l) end
  end.
(** the trajectory with times ts and positions ys (an array of length(ts) rows), which computes its velocities and
    accelerations *)
Definition traj_of (n : nat) (ts ys : list R) : res traj :=
  if Nat.eqb (length ys) (length ts * n)
  then new_traj ts (V2 (Mat n (chop (length ts) n ys))) None None None else Err ValueError.
Definition m_body (c : m_call) (m : dmp) (args : list (list R)) : res (dmp * list (list R)) :=
  match c, args with
  | MSetTau t, [] => let* m := set_tau m t in Ok (m, [])
  | MSetY, [y] => let* m := set_y0 m y in Ok (m, [])
  | MSetAttr, [y] => let* m := set_yattr m y in Ok (m, [])
  | MGetX, [] => Ok (m, [get_x_init (m_x_init m)])
  | MGetY, [] => Ok (m, [get_y0 m])
  | MGetAttr, [] => Ok (m, [m_attr m])
  | MGetTs, [] => match m_ts_train m with Some ts => Ok (m, [ts]) | None => Err Unmodelled end
  | MDecouple, [] => Ok (m_decouple m, [])
  | MSelect n, [] => Ok (m_select m n, [])
  | MGetParams, [] => let* v := m_get_params m in Ok (m, [v])
  | MSetParams, [v] => match m_set_params m v with (m', Ok _) => Ok (m', []) | (_, Err e) => Err e end
  | MDiffeq, [x] => let* (m', xd) := m_diffeq predict_fn m x in Ok (m', [xd])
  | MStart, [] => let* p := m_start predict_fn m None in let '(m', x, xd) := p in Ok (m', [x; xd])
  | MStep me dt, [x] => let* p := m_step predict_fn me m dt x in let '(m', x', xd) := p in Ok (m', [x'; xd])
  | MIntegrate me, [ts] => let* p := m_integrate predict_fn me m ts in
                           let '(m', (xs, xds)) := p in Ok (m', [List.concat xs; List.concat xds])
  | MSolve s, [ts] => let* r := m_ana predict_fn m (Some ts) s in
                      Ok (m, [List.concat (a_xs r); List.concat (a_xds r); List.concat (a_forcing r); List.concat (a_fa r)])
  | MSolveTrain s, [] => let* r := m_ana predict_fn m None s in
                         Ok (m, [List.concat (a_xs r); List.concat (a_xds r); List.concat (a_forcing r); List.concat (a_fa r)])
  | MTrain, [ts; ys] => let* t := traj_of (m_dim m) ts ys in let* m' := m_train predict_fn train_fn m t in Ok (m', [])
  | _, _ => Err TypeError
  end.
(** a goal system of class SigmoidSystem, whose cache DmpModel leaves out, is not modelled here *)
Definition m_meth (c : m_call) (m : dmp) (args : list (list R)) : res (dmp * list (list R)) :=
  match m_goal m with Some (SubS _) => Err Unmodelled | _ => m_body c m args end.

(** ** which array each attribute refers to after a call *)
(** Dmp.py l.249-262: without goal system self._spring_system.y_attr = self._y_attr, else an array computed from x;
    self._goal_system.y_attr = self._y_attr; self._spring_system.damping_coefficient = x[self.DAMPING] *)
Definition drive_binds (m : dmp) (f : nat) : source :=
  match f with
  | 3 => match m_goal m with None => Same 2 | Some _ => New end
  | 5 => match m_goal m with Some (SubE _) => Same 2 | _ => Keep end
  | 8 => match m_damping m with Some _ => New | None => Keep end
  | _ => Keep
  end%nat.
(** the attractor of the goal system in the y_attr setter, l.612-614 *)
Definition goal_binds (m : dmp) (s : source) : source :=
  match m_goal m with Some (SubE _) => if m_req m then Keep else s | _ => Keep end.
Definition m_binds (c : m_call) (m : dmp) (args : list (list R)) (f : nat) : source :=
  match c with
  | MSetY => match f with 1 => Arg 0 0 (m_dim m)                       (* self._y_init = y_init_new *)
                        | 4 => match m_goal m with Some _ => if m_req m then Keep else New | None => Keep end
                        | _ => Keep end
  | MSetAttr => match f with 2 => Arg 0 0 (m_dim m) | 5 => goal_binds m (Arg 0 0 (m_dim m)) | _ => Keep end
  | MDecouple => match f with 8 => decoupled (d_damp (m_spring m)) | _ => Keep end
  | MSetParams =>
    let v := nth 0 args [] in
    let goal := Arg 0 (length v - m_dim m) (m_dim m) in
    if Nat.ltb f 9 then
      if mem "goal" (m_sel m) then match f with 2 => goal | 5 => goal_binds m goal | _ => Keep end else Keep
    else nth (f - 9) (fas_sources (fas_of (pdmp_of m)) 0) Keep
  | MDiffeq | MStart | MStep _ _ | MIntegrate _ => drive_binds m f
  | MTrain =>
    let n := m_dim m in
    let last := Arg 1 (length (nth 1 args []) - n) n in               (* trajectory.ys[-1, :] *)
    match f with
    | 1 => Arg 1 0 n                                                  (* trajectory.ys[0, :] *)
    | 2 => last
    | 4 => match m_goal m with Some _ => if m_req m then Keep else New | None => Keep end
    | 5 => goal_binds m last
    | 6 => New
    | 7 => Arg 0 0 (length (nth 0 args []))                           (* self._ts_train = trajectory.ts *)
    | 0 | 3 | 8 => Keep
    | _ => New
    end
  | _ => Keep
  end%nat.
Definition m_rets (c : m_call) (m : dmp) : list rsource :=
  match c with
  | MGetX => [RField 0 0 (length (m_x_init m))]
  | MGetY => [RField 0 0 (min (m_dim m) (length (m_x_init m)))]
  | MGetAttr => [RField 2 0 (length (m_attr m))]
  | MGetTs => [RField 7 0 (length (opt_list (m_ts_train m)))]
  | _ => []
  end.
Definition dmps : class := Class dmp m_call m_nf m_get m_put m_meth m_binds m_rets.

(** ** the constructor, Dmp.py l.43-158. The first two arrays of the caller are y_init and y_attr. The keyword
    arguments which are numbers or arrays; the function approximators are only used by this DMP. *)
Record mctor := Mctor { n_type : dmp_type; n_tau : R; n_fas : option (list fa); n_alpha : option carg;
                        n_scaling : option fscaling; n_amps : option nat }.
Definition m_construct (c : mctor) (args : list (list R)) : res dmp :=
  if (Nat.leb 2 (length args) && match n_alpha c with Some p => cin args p | None => true end &&
      match n_amps c with Some k => Nat.ltb k (length args) | None => true end)%bool
  then new_dmp (n_type c) (n_tau c) (nth 0 args []) (nth 1 args []) (n_fas c)
               (Kw None (option_map (cpar args) (n_alpha c)) None None None None (n_scaling c)
                   (option_map (fun k => nth k args []) (n_amps c)))
  else Err TypeError.
(** self._y_attr = y_attr, and SpringDamperSystem(tau, y_init, y_attr, alpha), ExponentialSystem(tau, y_init, y_attr, 15),
    RichardsSystem(tau, y_init, y_attr, ...) keep it as well *)
Definition mc_binds (c : mctor) (args : list (list R)) (f : nat) : source :=
  let attr := Arg 1 0 (length (nth 1 args [])) in
  match f with
  | 2 | 3 => attr
  | 5 => match n_type c with Ijspeert | Sct23 false _ => New | _ => attr end
  | 6 => match n_amps c with Some k => Arg k 0 (length (nth k args [])) | None => New end
  | 8 => match n_alpha c with Some p => csource args p | None => New end
  | _ => New
  end%nat.
Definition run_dmp (c : mctor) (args : list (list R)) (es : list (event m_call)) : res (list (res (list (list R)))) :=
  let* m := m_construct c args in Ok (run dmps (boot dmps m args (mc_binds c args)) es).
End Dmp.
