(** The dynamical systems as classes with shared arrays. *)
From Verif Require Import Base DynModel AliasModel.

(** systems of the five classes; a SigmoidSystem with its cache *)
Inductive asys := AE (s : esys) | AS (c : csys) | AR (s : rsys) | AT (s : tsys) | AD (s : dsys).
Definition a_init (o : asys) : list R :=
  match o with AE s => e_init s | AS c => g_init (c_sys c) | AR s => h_init s | AT s => t_init s | AD s => d_init s end.
(** DynamicalSystem.py l.45-47 *)
Definition a_dimx (o : asys) : nat := length (a_init o).
Definition a_dimy (o : asys) : nat := match o with AD s => d_dimy s | _ => length (a_init o) end.

(** ** attributes which are arrays: _x_init, the attractor (ExponentialSystem.py l.40, SpringDamperSystem.py
    l.47, RichardsSystem.py l.33), and the parameters if they are arrays. _Ks_cached of SigmoidSystem
    (l.176) never leaves the object and is part of its value. *)
Definition pget (p : param) : list R := match p with PVec l => l | PScal _ => [] end.
Definition pput (v : list R) (p : param) : param := match p with PVec _ => PVec v | PScal r => PScal r end.
Definition a_nf (o : asys) : nat := match o with AE _ => 3 | AS _ => 3 | AR _ => 6 | AT _ => 1 | AD _ => 5 end.
Definition a_get (f : nat) (o : asys) : list R :=
  match o with
  | AE s => match f with 0 => e_init s | 1 => e_attr s | _ => pget (e_alpha s) end
  | AS c => match f with 0 => g_init (c_sys c) | 1 => pget (g_rate (c_sys c)) | _ => pget (g_infl (c_sys c)) end
  | AR s => match f with 0 => h_init s | 1 => pget (h_right s) | 2 => pget (h_infl s) | 3 => pget (h_alpha s) | 4 => pget (h_v s)
            | _ => match h_left s with Some p => pget p | None => [] end end
  | AT s => t_init s
  | AD s => match f with 0 => d_init s | 1 => d_attr s | 2 => pget (d_damp s) | 3 => pget (d_spring s) | _ => pget (d_mass s) end
  end%nat.
Definition a_put (f : nat) (v : list R) (o : asys) : asys :=
  match o with
  | AE s => AE match f with
      | 0 => Esys (e_tau s) v (e_attr s) (e_alpha s)
      | 1 => Esys (e_tau s) (e_init s) v (e_alpha s)
      | _ => Esys (e_tau s) (e_init s) (e_attr s) (pput v (e_alpha s)) end
  | AS c => let s := c_sys c in
      AS (Csys match f with
        | 0 => Ssys (g_tau s) v (g_rate s) (g_infl s)
        | 1 => Ssys (g_tau s) (g_init s) (pput v (g_rate s)) (g_infl s)
        | _ => Ssys (g_tau s) (g_init s) (g_rate s) (pput v (g_infl s)) end (c_ks c))
  | AR s => AR match f with
      | 0 => Rsys (h_tau s) v (h_right s) (h_infl s) (h_alpha s) (h_v s) (h_left s)
      | 1 => Rsys (h_tau s) (h_init s) (pput v (h_right s)) (h_infl s) (h_alpha s) (h_v s) (h_left s)
      | 2 => Rsys (h_tau s) (h_init s) (h_right s) (pput v (h_infl s)) (h_alpha s) (h_v s) (h_left s)
      | 3 => Rsys (h_tau s) (h_init s) (h_right s) (h_infl s) (pput v (h_alpha s)) (h_v s) (h_left s)
      | 4 => Rsys (h_tau s) (h_init s) (h_right s) (h_infl s) (h_alpha s) (pput v (h_v s)) (h_left s)
      | _ => Rsys (h_tau s) (h_init s) (h_right s) (h_infl s) (h_alpha s) (h_v s)
                  (match h_left s with Some p => Some (pput v p) | None => None end) end
  | AT s => AT (Tsys (t_tau s) v (t_down s))
  | AD s => AD match f with
      | 0 => Dsys (d_tau s) v (d_attr s) (d_damp s) (d_spring s) (d_mass s) (d_dimy s)
      | 1 => Dsys (d_tau s) (d_init s) v (d_damp s) (d_spring s) (d_mass s) (d_dimy s)
      | 2 => Dsys (d_tau s) (d_init s) (d_attr s) (pput v (d_damp s)) (d_spring s) (d_mass s) (d_dimy s)
      | 3 => Dsys (d_tau s) (d_init s) (d_attr s) (d_damp s) (pput v (d_spring s)) (d_mass s) (d_dimy s)
      | _ => Dsys (d_tau s) (d_init s) (d_attr s) (d_damp s) (d_spring s) (pput v (d_mass s)) (d_dimy s) end
  end%nat.

(** ** methods. Arguments and results which are arrays are passed as lists of numbers; the results of
    analytical_solution and integrate row after row. *)
Inductive a_call :=
  | ASetTau (t : R) | ASetX | ASetY | ASetAttr | ASetPar (f : nat) | ADecouple
  | AGetX | AGetY | AGetAttr
  | AStart | AStartAt | ADiffeq | ASolve | AStep (m : int_method) (dt : R) | AIntegrate (m : int_method).
(** DynamicalSystem.py l.60-66, SigmoidSystem.py l.86-93 *)
Definition a_set_tau (t : R) (o : asys) : asys :=
  match o with
  | AE s => AE (Esys t (e_init s) (e_attr s) (e_alpha s))
  | AS c => AS (fst (c_do c (SSetTau t)))
  | AR s => AR (Rsys t (h_init s) (h_right s) (h_infl s) (h_alpha s) (h_v s) (h_left s))
  | AT s => AT (Tsys t (t_init s) (t_down s))
  | AD s => AD (Dsys t (d_init s) (d_attr s) (d_damp s) (d_spring s) (d_mass s) (d_dimy s))
  end.
Definition a_with_init (x : list R) (o : asys) : asys :=
  match o with AS c => AS (Csys (Ssys (g_tau (c_sys c)) x (g_rate (c_sys c)) (g_infl (c_sys c))) None) | _ => a_put 0 x o end.
(** DynamicalSystem.py l.92-100, SigmoidSystem.py l.95-104 *)
Definition a_set_x (x : list R) (o : asys) : res asys := let* x := set_x_init (a_dimx o) x in Ok (a_with_init x o).
(** DynamicalSystem.py l.112-123, SigmoidSystem.py l.106-115 *)
Definition a_set_y (y : list R) (o : asys) : res asys :=
  match o with
  | AS _ => a_set_x y o
  | _ => let* x := set_y_init (a_dimy o) (a_dimx o) y in Ok (a_with_init x o)
  end.
(** ExponentialSystem.py l.49-57 and l.67-75, SpringDamperSystem.py l.60-66; on the other classes an
    assignment to y_attr makes a new attribute that nothing uses (not modelled) *)
Definition a_set_attr (y : list R) (o : asys) : res asys :=
  match o with
  | AE _ | AD _ => if Nat.eqb (length y) (a_dimy o) then Ok (a_put 1 y o) else Err ValueError
  | _ => Err Unmodelled
  end.
(** assignments to the attributes alpha (ExponentialSystem), right_asymp, t_infl_ratio, alpha, v and
    set_left_asymp (RichardsSystem.py l.37-38), damping_coefficient, spring_constant, mass
    (SpringDamperSystem): no check *)
Definition a_set_par (f : nat) (v : list R) (o : asys) : res asys :=
  match o, f with
  | AE s, 2 => Ok (AE (Esys (e_tau s) (e_init s) (e_attr s) (PVec v)))
  | AR s, 1 => Ok (AR (Rsys (h_tau s) (h_init s) (PVec v) (h_infl s) (h_alpha s) (h_v s) (h_left s)))
  | AR s, 2 => Ok (AR (Rsys (h_tau s) (h_init s) (h_right s) (PVec v) (h_alpha s) (h_v s) (h_left s)))
  | AR s, 3 => Ok (AR (Rsys (h_tau s) (h_init s) (h_right s) (h_infl s) (PVec v) (h_v s) (h_left s)))
  | AR s, 4 => Ok (AR (Rsys (h_tau s) (h_init s) (h_right s) (h_infl s) (h_alpha s) (PVec v) (h_left s)))
  | AR s, 5 => Ok (AR (Rsys (h_tau s) (h_init s) (h_right s) (h_infl s) (h_alpha s) (h_v s) (Some (PVec v))))
  | AD s, 2 => Ok (AD (Dsys (d_tau s) (d_init s) (d_attr s) (PVec v) (d_spring s) (d_mass s) (d_dimy s)))
  | AD s, 3 => Ok (AD (Dsys (d_tau s) (d_init s) (d_attr s) (d_damp s) (PVec v) (d_mass s) (d_dimy s)))
  | AD s, 4 => Ok (AD (Dsys (d_tau s) (d_init s) (d_attr s) (d_damp s) (d_spring s) (PVec v) (d_dimy s)))
  | _, _ => Err Unmodelled
  end%nat.
Definition a_decouple (o : asys) : asys :=
  match o with
  | AE s => AE (e_decouple s) | AS c => AS (fst (c_do c SDecouple)) | AR s => AR (r_decouple s) | AT s => AT s | AD s => AD (d_decouple s)
  end.
(** differential_equation; the first call fills the cache of a SigmoidSystem *)
Definition a_rate (o : asys) (x : list R) : res (list R) :=
  match o with
  | AE s => e_diffeq s x
  | AS c => let* ks := snd (c_get_ks c) in s_diffeq_k (c_sys c) ks x
  | AR s => r_diffeq s x | AT s => t_diffeq s x | AD s => d_diffeq s x
  end.
Definition a_touch (o : asys) : asys := match o with AS c => AS (fst (c_get_ks c)) | _ => o end.
Definition a_solve (o : asys) (ts : list R) : res solution :=
  match o with
  | AE s => e_ana s ts
  | AS c => let* ks := snd (c_get_ks c) in s_ana_k (c_sys c) ks ts
  | AR s => r_ana s ts | AT s => t_ana s ts | AD s => d_ana s ts
  end.
Definition a_start (o : asys) : res (asys * list (list R)) :=
  let* (x, xd) := integrate_start (a_rate o) (a_init o) in Ok (a_touch o, [x; xd]).
Definition a_meth (c : a_call) (o : asys) (args : list (list R)) : res (asys * list (list R)) :=
  match c, args with
  | ASetTau t, [] => Ok (a_set_tau t o, [])
  | ASetX, [x] => let* o := a_set_x x o in Ok (o, [])
  | ASetY, [y] => let* o := a_set_y y o in Ok (o, [])
  | ASetAttr, [y] => let* o := a_set_attr y o in Ok (o, [])
  | ASetPar f, [v] => let* o := a_set_par f v o in Ok (o, [])
  | ADecouple, [] => Ok (a_decouple o, [])
  | AGetX, [] => Ok (o, [get_x_init (a_init o)])
  | AGetY, [] => Ok (o, [get_y_init (a_dimy o) (a_init o)])
  | AGetAttr, [] => match o with AE s => Ok (o, [e_attr s]) | AD s => Ok (o, [d_attr s]) | _ => Err AttributeError end
  | AStart, [] => a_start o
  | AStartAt, [y] => let* o := a_set_y y o in a_start o
  | ADiffeq, [x] => let* xd := a_rate o x in Ok (a_touch o, [xd])
  | ASolve, [ts] => let* (xs, xds) := a_solve o ts in Ok (a_touch o, [concat xs; concat xds])
  | AStep m dt, [x] => let* (x', xd) := int_step (a_rate o) (a_dimx o) m dt x in Ok (a_touch o, [x'; xd])
  | AIntegrate m, [ts] => let* (xs, xds) := integrate (a_rate o) (a_dimx o) m (a_init o) ts in Ok (a_touch o, [concat xs; concat xds])
  | _, _ => Err TypeError
  end.

(** ** which array each attribute refers to after a call *)
(** np.full makes a new array, an array stays *)
Definition decoupled (p : param) : source := match p with PVec _ => Keep | PScal _ => New end.
Definition a_binds (c : a_call) (o : asys) (args : list (list R)) (f : nat) : source :=
  match c with
  (* self._x_init = np.atleast_1d(new_x_init), SigmoidSystem: self._x_init = new_x_init *)
  | ASetX => match f with 0 => Arg 0 0 (a_dimx o) | _ => Keep end
  (* x_init_new = np.zeros(self._dim_x), SigmoidSystem: self.x_init = new_y_init *)
  | ASetY | AStartAt => match f with 0 => match o with AS _ => Arg 0 0 (a_dimx o) | _ => New end | _ => Keep end
  | ASetAttr => match f with 1 => Arg 0 0 (a_dimy o) | _ => Keep end
  | ASetPar g => if Nat.eqb f g then Arg 0 0 (length (nth 0 args [])) else Keep
  | ADecouple => match o, f with
      | AE s, 2 => decoupled (e_alpha s)
      | AS c, 1 => decoupled (g_rate (c_sys c)) | AS c, 2 => decoupled (g_infl (c_sys c))
      | AR s, 2 => decoupled (h_infl s) | AR s, 3 => decoupled (h_alpha s) | AR s, 4 => decoupled (h_v s)
      | AD s, 2 => decoupled (d_damp s) | AD s, 3 => decoupled (d_spring s) | AD s, 4 => decoupled (d_mass s)
      | _, _ => Keep end
  | _ => Keep
  end%nat.
Definition a_rets (c : a_call) (o : asys) : list rsource :=
  match c with
  | AGetX => [RField 0 0 (a_dimx o)]                       (* return self._x_init *)
  | AGetY => [RField 0 0 (min (a_dimy o) (a_dimx o))]      (* return self._x_init[: self._dim_y] *)
  | AGetAttr => [RField 1 0 (length (a_get 1 o))]
  | AStart | AStartAt => [RField 0 0 (a_dimx o); RNew]     (* x = self._x_init *)
  | _ => []
  end.
Definition systems : class := Class asys a_call a_nf a_get a_put a_meth a_binds a_rets.

(** ** constructors: parameters are numbers or arrays; [CArr k] is the k-th array of the caller *)
Inductive carg := CScal (r : R) | CArr (k : nat).
Definition cpar (args : list (list R)) (p : carg) : param := match p with CScal r => PScal r | CArr k => PVec (nth k args []) end.
Definition cin (args : list (list R)) (p : carg) : bool := match p with CScal _ => true | CArr k => Nat.ltb k (length args) end.
(** the first two arrays are x_init and x_attr (y_init and y_attr of SpringDamperSystem; SigmoidSystem has
    only x_init, TimeSystem none) *)
Inductive ctor :=
  | NewExponential (tau : R) (alpha : carg) | NewSigmoid (tau : R) (rate infl : carg)
  | NewRichards (tau : R) (infl alpha v : carg) | NewTime (tau : R) (down : bool)
  | NewSpring (tau : R) (damp : carg) (spring : option carg) (mass : carg).
(** ExponentialSystem.py l.29-41, SigmoidSystem.py l.29-46, RichardsSystem.py l.29-35, TimeSystem.py l.29-40,
    SpringDamperSystem.py l.29-54. The sizes of the attractor are not checked. *)
Definition construct (c : ctor) (args : list (list R)) : res asys :=
  let x0 := nth 0 args [] in let x1 := nth 1 args [] in
  match c with
  | NewExponential tau alpha =>
    if (Nat.leb 2 (length args) && cin args alpha)%bool then Ok (AE (Esys tau x0 x1 (cpar args alpha))) else Err TypeError
  | NewSigmoid tau rate infl =>
    if (Nat.leb 1 (length args) && cin args rate && cin args infl)%bool
    then Ok (AS (Csys (Ssys tau x0 (cpar args rate) (cpar args infl)) None)) else Err TypeError
  | NewRichards tau infl alpha v =>
    if (Nat.leb 2 (length args) && cin args infl && cin args alpha && cin args v)%bool
    then Ok (AR (Rsys tau x0 (PVec x1) (cpar args infl) (cpar args alpha) (cpar args v) None)) else Err TypeError
  | NewTime tau down => Ok (AT (new_time tau down))
  | NewSpring tau damp spring mass =>
    if (Nat.leb 2 (length args) && cin args damp && match spring with Some k => cin args k | None => true end && cin args mass)%bool
    then Ok (AD (new_spring tau x0 x1 (cpar args damp) (option_map (cpar args) spring) (cpar args mass))) else Err TypeError
  end.
(** self._x_init is a new array (DynamicalSystem.py l.49-50); the other attributes are the arrays given *)
Definition csource (args : list (list R)) (p : carg) : source := match p with CScal _ => New | CArr k => Arg k 0 (length (nth k args [])) end.
Definition c_binds (c : ctor) (args : list (list R)) (f : nat) : source :=
  match c, f with
  | NewExponential _ _, 1 | NewRichards _ _ _ _, 1 | NewSpring _ _ _ _, 1 => Arg 1 0 (length (nth 1 args []))
  | NewExponential _ alpha, 2 => csource args alpha
  | NewSigmoid _ rate _, 1 => csource args rate | NewSigmoid _ _ infl, 2 => csource args infl
  | NewRichards _ infl _ _, 2 => csource args infl | NewRichards _ _ alpha _, 3 => csource args alpha | NewRichards _ _ _ v, 4 => csource args v
  | NewSpring _ damp _ _, 2 => csource args damp
  | NewSpring _ _ (Some k) _, 3 => csource args k
  | NewSpring _ _ _ mass, 4 => csource args mass
  | _, _ => New
  end%nat.
(** a program: a constructor with the given arrays, then the events *)
Definition run_system (c : ctor) (args : list (list R)) (es : list (event a_call)) : res (list (res (list (list R)))) :=
  let* o := construct c args in Ok (run systems (boot systems o args (c_binds c args)) es).
