(** Specification vocabulary for setting parameters of the subsystems of a DMP. *)
From Coq Require Import String.
From Verif Require Import Base DynModel DynSpec ParamModel DmpModel DmpSpec TuneModel.
Open Scope string_scope.

(** the parameters a user sets, by kind of system *)
Definition spring_names : list string := ["damping_coefficient"; "spring_constant"; "mass"].
Definition sub_names (s : sub) : list string :=
  match s with SubE _ => ["alpha"] | SubR _ => ["alpha"; "v"; "t_infl_ratio"] | SubS _ | SubT _ => [] end.
(** a dictionary of such parameters *)
Definition dict {V} (d : list (string * V)) : Prop := NoDup (map fst d).
Definition names_in (l : list string) (ps : settings) : Prop := dict ps /\ forall n, In n (map fst ps) -> In n l.
(** the new value of a parameter, or the one it had *)
Definition new (ps : settings) (n : string) (old : param) : param := opt (lookup ps n) old.
(** a system with the new parameters: nothing else changes *)
Definition spring_with (s : dsys) (ps : settings) : dsys :=
  Dsys (d_tau s) (d_init s) (d_attr s) (new ps "damping_coefficient" (d_damp s)) (new ps "spring_constant" (d_spring s))
       (new ps "mass" (d_mass s)) (d_dimy s).
Definition sub_with (ps : settings) (s : sub) : sub :=
  match s with
  | SubE e => SubE (Esys (e_tau e) (e_init e) (e_attr e) (new ps "alpha" (e_alpha e)))
  | SubR h => SubR (Rsys (h_tau h) (h_init h) (h_right h) (new ps "t_infl_ratio" (h_infl h)) (new ps "alpha" (h_alpha h)) (new ps "v" (h_v h)) (h_left h))
  | _ => s
  end.
(** the settings for one system: none if it is not mentioned *)
Definition for_system (params : list (string * settings)) (n : string) : settings := opt (lookup params n) [].
(** settings that mention the subsystems the DMP has, and their parameters *)
Definition proper_settings (m : dmp) (params : list (string * settings)) : Prop :=
  dict params /\
  (forall n, In n (map fst params) -> n = "spring_system" \/ (n = "goal_system" /\ m_goal m <> None) \/ (n = "damping_system" /\ m_damping m <> None)) /\
  names_in spring_names (for_system params "spring_system") /\
  (forall g, m_goal m = Some g -> names_in (sub_names g) (for_system params "goal_system")) /\
  (forall s, m_damping m = Some s -> names_in (sub_names s) (for_system params "damping_system")).
(** the DMP with these parameters: everything else is as before *)
Definition tuned (m : dmp) (params : list (string * settings)) : dmp :=
  Dmp (m_tau m) (m_dim m) (m_x_init m) (m_y0 m) (m_attr m) (m_fas m) (m_sel m)
      (spring_with (m_spring m) (for_system params "spring_system")) (option_map (sub_with (for_system params "goal_system")) (m_goal m))
      (m_phase m) (m_gating m) (option_map (sub_with (for_system params "damping_system")) (m_damping m))
      (m_req m) (m_scaling m) (m_amps m) (m_ts_train m).
(** scalars or arrays with a value for each of n dimensions *)
Definition fitting (n : nat) (ps : settings) : Prop := Forall (fun p => par_ok (snd p) n) ps.
Definition positive_mass (n : nat) (ps : settings) : Prop :=
  forall v i, lookup ps "mass" = Some v -> (i < n)%nat -> par_val v i <> 0%R.
(** all attributes of the systems *)
Definition base_attrs : list string := ["_tau"; "_dim_y"; "_dim_x"; "_x_init"].
Definition spring_attrs : list string := (base_attrs ++ ["_y_attr"; "damping_coefficient"; "mass"; "spring_constant"])%list.
Definition sub_attrs (s : sub) : list string :=
  (base_attrs ++ match s with
                 | SubE _ => ["_x_attr"; "alpha"]
                 | SubR _ => ["alpha"; "v"; "right_asymp"; "t_infl_ratio"; "left_asymp"]
                 | SubS _ => ["_max_rate"; "_inflection_ratio"; "_Ks_cached"]
                 | SubT _ => ["_count_down"]
                 end)%list.
(** the keyword arguments of the constructor, with these systems *)
Definition kw_with (kw : dmp_kw) (m : dmp) : dmp_kw :=
  Kw (Some (m_spring m)) (k_alpha kw) (k_phase kw) (k_gating kw) (Some (m_goal m)) (Some (m_damping m)) (k_scaling kw) (k_amps kw).
