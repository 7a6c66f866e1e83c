(** Model of Dmp.set_params_dyn_sys (dmpbbo/dmps/Dmp.py:657-677): setting parameters of the subsystems of
    a DMP. Exceptions of class Exception are [RuntimeError]. *)
From Coq Require Import String.
From Verif Require Import Base DynModel ParamModel FaModel TrajModel DmpModel.
Open Scope string_scope.

(** params[system_name]: names of attributes and their new values, numbers or arrays *)
Definition settings := list (string * param).

(** l.665-668 for one attribute of a SpringDamperSystem: attributes of the object (SpringDamperSystem.py:46-54,
    DynamicalSystem.py:41-49) are replaced, without any check; other names raise. [Unmodelled]: sizes, and values
    of another kind. *)
Definition spring_attr (s : dsys) (n : string) (v : param) : res dsys :=
  let '(Dsys t x a d k m y) := s in
  if n =? "damping_coefficient" then Ok (Dsys t x a v k m y)
  else if n =? "spring_constant" then Ok (Dsys t x a d v m y)
  else if n =? "mass" then Ok (Dsys t x a d k v y)
  else if n =? "_tau" then match v with PScal t' => Ok (Dsys t' x a d k m y) | PVec _ => Err Unmodelled end
  else if n =? "_x_init" then match v with PVec x' => Ok (Dsys t x' a d k m y) | PScal _ => Err Unmodelled end
  else if n =? "_y_attr" then match v with PVec a' => Ok (Dsys t x a' d k m y) | PScal _ => Err Unmodelled end
  else if ((n =? "_dim_x") || (n =? "_dim_y"))%bool then Err Unmodelled
  else Err RuntimeError.
(** the same for the other systems (ExponentialSystem.py:37-39, RichardsSystem.py:30-39, TimeSystem.py:36).
    [Unmodelled]: parameters of sigmoid systems, for which see [c_set]. *)
Definition sub_attr (s : sub) (n : string) (v : param) : res sub :=
  if ((n =? "_dim_x") || (n =? "_dim_y") || (n =? "_tau") || (n =? "_x_init"))%bool then Err Unmodelled else
  match s with
  | SubE (Esys t x a al) =>
    if n =? "alpha" then Ok (SubE (Esys t x a v))
    else if n =? "_x_attr" then match v with PVec a' => Ok (SubE (Esys t x a' al)) | PScal _ => Err Unmodelled end
    else Err RuntimeError
  | SubR (Rsys t x r i al w l) =>
    if n =? "alpha" then Ok (SubR (Rsys t x r i v w l))
    else if n =? "v" then Ok (SubR (Rsys t x r i al v l))
    else if n =? "t_infl_ratio" then Ok (SubR (Rsys t x r v al w l))
    else if n =? "right_asymp" then Ok (SubR (Rsys t x v i al w l))
    else if n =? "left_asymp" then Ok (SubR (Rsys t x r i al w (Some v)))
    else Err RuntimeError
  | SubS _ => if ((n =? "_max_rate") || (n =? "_inflection_ratio") || (n =? "_Ks_cached"))%bool then Err Unmodelled else Err RuntimeError
  | SubT _ => if n =? "_count_down" then Err Unmodelled else Err RuntimeError
  end.
(** l.664-672: one attribute after the other; what was set before an exception stays *)
Fixpoint set_attrs {S : Type} (set : S -> string -> param -> res S) (s : S) (ps : settings) : S * res unit :=
  match ps with
  | [] => (s, Ok tt)
  | (n, v) :: rest => match set s n v with Ok s' => set_attrs set s' rest | Err e => (s, Err e) end
  end.
Definition with_systems (m : dmp) (sp : dsys) (go da : option sub) : dmp :=
  Dmp (m_tau m) (m_dim m) (m_x_init m) (m_y0 m) (m_attr m) (m_fas m) (m_sel m) sp go (m_phase m) (m_gating m) da
      (m_req m) (m_scaling m) (m_amps m) (m_ts_train m).
(** l.658-672, for the spring system, and for goal and damping system *)
Definition set_spring (m : dmp) (params : list (string * settings)) : dmp * res unit :=
  match lookup params "spring_system" with
  | None => (m, Ok tt)
  | Some ps => let '(sp, r) := set_attrs spring_attr (m_spring m) ps in (with_systems m sp (m_goal m) (m_damping m), r)
  end.
Definition set_optional (o : option sub) (ps : option settings) : option sub * res unit :=
  match ps with
  | None => (o, Ok tt)
  | Some ps => match o with
               | None => (o, Err RuntimeError)
               | Some s => let '(s', r) := set_attrs sub_attr s ps in (Some s', r)
               end
  end.
(** l.674-677: the names of attributes of a Dmp without the underscore (l.70-142, 594; DynamicalSystem.py:41-49) *)
Definition dmp_attrs (m : dmp) : list string :=
  (["tau"; "dim_y"; "dim_x"; "x_init"; "y_attr"; "function_approximators"; "spring_system"; "phase_system"; "gating_system"; "goal_system";
    "damping_system"; "forcing_term_scaling"; "scaling_amplitudes"; "ts_train"; "trajectory_train"; "selected_param_names"]
   ++ match m_y0 m with Some _ => ["y_init"] | None => [] end)%list.
Definition mem (l : list string) (n : string) : bool := existsb (String.eqb n) l.
(** l.657-677 *)
Definition set_params_dyn_sys (m : dmp) (params : list (string * settings)) : dmp * res unit :=
  match set_spring m params with
  | (m1, Err e) => (m1, Err e)
  | (m1, Ok _) =>
    match set_optional (m_goal m1) (lookup params "goal_system") with
    | (go, Err e) => (with_systems m1 (m_spring m1) go (m_damping m1), Err e)
    | (go, Ok _) =>
      match set_optional (m_damping m1) (lookup params "damping_system") with
      | (da, Err e) => (with_systems m1 (m_spring m1) go da, Err e)
      | (da, Ok _) =>
        (with_systems m1 (m_spring m1) go da, if forallb (fun p => mem (dmp_attrs m) (fst p)) params then Ok tt else Err RuntimeError)
      end
    end
  end.
(** l.665-668 for a SigmoidSystem with its cache (SigmoidSystem.py:38-46) *)
Definition c_set (c : csys) (n : string) (v : param) : res csys :=
  let s := c_sys c in
  if n =? "_max_rate" then Ok (Csys (Ssys (g_tau s) (g_init s) v (g_infl s)) (c_ks c))
  else if n =? "_inflection_ratio" then Ok (Csys (Ssys (g_tau s) (g_init s) (g_rate s) v) (c_ks c))
  else if ((n =? "_dim_x") || (n =? "_dim_y") || (n =? "_tau") || (n =? "_x_init") || (n =? "_Ks_cached"))%bool then Err Unmodelled
  else Err RuntimeError.
