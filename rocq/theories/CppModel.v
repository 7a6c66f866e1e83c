(** Model of the C++ counterpart of DMPs: src/dmp/Dmp.cpp, src/dynamicalsystems/*.cpp,
    src/functionapproximators/*.cpp and src/eigenutils/eigen_json.tpp, together with the export from
    Python in dmpbbo/json_for_cpp.py.

    Outcomes: KeyError stands for nlohmann::json::out_of_range (j.at of a missing key), TypeError for
    nlohmann::json::type_error, RuntimeError for a failed assertion, a null pointer or an index out of
    bounds (undefined behaviour if assertions are switched off), NonFinite for nan or inf. *)
From Coq Require Import String.
From Verif Require Import Base DynModel ParamModel FaModel TrajModel DmpModel.
Open Scope string_scope.
Open Scope R_scope.

(** ** JSON documents. Simplification: numbers are real numbers, written and read without loss. *)
Inductive json :=
  JNull | JBool (b : bool) | JNum (r : R) | JStr (s : string) | JArr (l : list json) | JObj (l : list (string * json)).

(** ** json_for_cpp.py *)
(** l.41-42: np.ndarray.tolist(). Arrays with more than two dimensions do not occur. *)
Definition vec_json (l : list R) : json := JArr (map JNum l).
Definition arr_json (a : arr) : json :=
  match ashape a with
  | [] => match adata a with [r] => JNum r | _ => JNull end
  | [_] => vec_json (adata a)
  | [n; c] => JArr (map vec_json (chunks c n (adata a)))
  | _ => JNull
  end.
Definition pval_json (v : pval) : json :=
  match v with PNone => JNull | PArr a => arr_json a | PFloat r => JNum r end.
Definition param_json (p : param) : json := match p with PScal r => JNum r | PVec l => vec_json l end.
(** l.43-47: the class and the attributes (__dict__) *)
Definition obj (class : string) (d : list (string * json)) : json := JObj (("class", JStr class) :: d).
(** the attributes made by DynamicalSystem.__init__ (DynamicalSystem.py:41-50) *)
Definition base_attrs (tau : R) (dim_y dim_x : nat) (x_init : list R) : list (string * json) :=
  [("_tau", JNum tau); ("_dim_y", JNum (INR dim_y)); ("_dim_x", JNum (INR dim_x)); ("_x_init", vec_json x_init)].
(** the other attributes: ExponentialSystem.py:38-39, SigmoidSystem.py:40-46, RichardsSystem.py:32-39,
    TimeSystem.py:36. The cache of SigmoidSystem is written as null; nothing reads it. *)
Definition sub_json (s : sub) : json :=
  match s with
  | SubE e => obj "ExponentialSystem"
      (base_attrs (e_tau e) (length (e_init e)) (length (e_init e)) (e_init e) ++
       [("_x_attr", vec_json (e_attr e)); ("alpha", param_json (e_alpha e))])%list
  | SubS g => obj "SigmoidSystem"
      (base_attrs (g_tau g) (length (g_init g)) (length (g_init g)) (g_init g) ++
       [("_max_rate", param_json (g_rate g)); ("_inflection_ratio", param_json (g_infl g)); ("_Ks_cached", JNull)])%list
  | SubR h => obj "RichardsSystem"
      (base_attrs (h_tau h) (length (h_init h)) (length (h_init h)) (h_init h) ++
       [("alpha", param_json (h_alpha h)); ("v", param_json (h_v h)); ("right_asymp", param_json (h_right h));
        ("t_infl_ratio", param_json (h_infl h));
        ("left_asymp", match h_left h with None => JNull | Some p => param_json p end)])%list
  | SubT t => obj "TimeSystem" (("_count_down", JBool (t_down t)) :: base_attrs (t_tau t) 1 1 (t_init t))
  end.
(** SpringDamperSystem.py:48-54 *)
Definition spring_json (s : dsys) : json :=
  obj "SpringDamperSystem"
    (base_attrs (d_tau s) (d_dimy s) (2 * d_dimy s) (d_init s) ++
     [("_y_attr", vec_json (d_attr s)); ("damping_coefficient", param_json (d_damp s));
      ("mass", param_json (d_mass s)); ("spring_constant", param_json (d_spring s))])%list.
(** the class of a function approximator: FunctionApproximatorRBFN.py, -LWR.py, or -WLS.py and -GPR.py *)
Inductive fa_kind := KRbfn | KLwr | KOther.
Definition kind_name (k : fa_kind) : string :=
  match k with KRbfn => "FunctionApproximatorRBFN" | KLwr => "FunctionApproximatorLWR" | KOther => "FunctionApproximatorGPR" end.
(** FunctionApproximator.py:35-40; meta-parameters, selected names and training data are not read by the
    C++ code and left out *)
Definition fa_json (k : fa_kind) (f : fa) : json :=
  obj (kind_name k)
    [("_model_params", JObj (map (fun p => (fst p, pval_json (snd p))) (f_model f)));
     ("_dim_input", match f_dim f with Some d => JNum (INR d) | None => JNull end)].
Definition scaling_name (s : fscaling) : string :=
  match s with NoScaling => "NO_SCALING" | GMinusY0 => "G_MINUS_Y0_SCALING" | Amplitude => "AMPLITUDE_SCALING" end.
Definition opt_json {A} (f : A -> json) (o : option A) : json := match o with Some a => f a | None => JNull end.
(** Dmp.py:70-142 and 594. [kinds i] is the class of the i-th function approximator. The names of the
    selected parameters and the training trajectory are not read by the C++ code and left out. *)
Definition dmp_json (kinds : nat -> fa_kind) (m : dmp) : json :=
  obj "Dmp"
    (base_attrs (m_tau m) (m_dim m) (dim_x m) (m_x_init m) ++
     [("_y_attr", vec_json (m_attr m));
      ("_function_approximators",
        opt_json (fun fs => JArr (map (fun p => fa_json (kinds (fst p)) (snd p)) (combine (seq 0 (length fs)) fs))) (m_fas m));
      ("_spring_system", spring_json (m_spring m)); ("goal_system_requires_scaling", JBool (m_req m));
      ("_phase_system", sub_json (m_phase m)); ("_gating_system", sub_json (m_gating m));
      ("_goal_system", opt_json sub_json (m_goal m)); ("_damping_system", opt_json sub_json (m_damping m));
      ("_forcing_term_scaling", JStr (scaling_name (m_scaling m)));
      ("_scaling_amplitudes", opt_json vec_json (m_amps m)); ("_ts_train", opt_json vec_json (m_ts_train m))] ++
     match m_y0 m with Some y => [("_y_init", vec_json y)] | None => [] end)%list.

(** ** Reading JSON: nlohmann::json *)
Definition jat (j : json) (key : string) : res json :=
  match j with
  | JObj l => match lookup l key with Some v => Ok v | None => Err KeyError end
  | _ => Err TypeError
  end.
Definition jnum (j : json) : res R := match j with JNum r => Ok r | _ => Err TypeError end.
Definition jstr (j : json) : res string := match j with JStr s => Ok s | _ => Err TypeError end.
(** a conversion to int accepts booleans and numbers; only its sign is used (TimeSystem.cpp:121-122).
    Simplification: numbers are not truncated. *)
Definition jpos (j : json) : res bool :=
  match j with
  | JBool b => Ok b
  | JNum r => Ok (if Rlt_dec 0 r then true else false)
  | _ => Err TypeError
  end.
(** eigen_json.tpp:11-42 for a vector: an array of numbers or of arrays with one number; null and the
    empty object have size 0 *)
Definition jvec (j : json) : res (list R) :=
  match j with
  | JNull | JObj [] => Ok []
  | JArr l => mapM (fun e => match e with
                             | JArr [v] => jnum v
                             | JArr _ => Err RuntimeError
                             | _ => jnum e
                             end) l
  | _ => Err TypeError
  end.
(** eigen_json.tpp:11-42 for a matrix, which is resized for the first row *)
Definition jmat (j : json) : res mat :=
  match j with
  | JNull | JObj [] | JArr [] => Ok (Mat 0 [])
  | JArr (JArr r0 :: rest) =>
    let* rows := mapM (fun e => match e with
                                | JArr r => if Nat.eqb (length r) (length r0) then mapM jnum r else Err RuntimeError
                                | _ => if Nat.eqb (length r0) 1 then let* v := jnum e in Ok [v] else Err Unmodelled
                                end) (JArr r0 :: rest) in
    Ok (Mat (length r0) rows)
  | JArr l => let* rows := mapM (fun e => match e with
                                          | JArr [v] => let* v := jnum v in Ok [v]
                                          | JArr _ => Err RuntimeError
                                          | _ => let* v := jnum e in Ok [v]
                                          end) l in
              Ok (Mat 1 rows)
  | _ => Err TypeError
  end.

(** ** src/dynamicalsystems *)
(** ExponentialSystem.cpp:37-41, 91-99 *)
Record cexp := Cexp { ce_tau : R; ce_init : list R; ce_attr : list R; ce_alpha : R }.
Definition load_exp (j : json) : res cexp :=
  let* t := jat j "_tau" in let* t := jnum t in
  let* a := jat j "alpha" in let* a := jnum a in
  let* x := jat j "_x_init" in let* x := jvec x in
  let* xa := jat j "_x_attr" in let* xa := jvec xa in
  Ok (Cexp t x xa a).
(** xd = f(x_attr, x); Eigen asserts that the sizes are equal *)
Definition ceq (f : R -> R -> R) (a b : list R) : res (list R) :=
  if Nat.eqb (length a) (length b) then Ok (map2 f a b) else Err RuntimeError.
(** l.45-52 *)
Definition exp_diffeq (s : cexp) (x : list R) : res (list R) :=
  if Req_EM_T (ce_tau s) 0 then Err NonFinite else
  ceq (fun a v => ce_alpha s * (a - v) / ce_tau s) (ce_attr s) x.
(** l.54-89; the matrices passed by Dmp::analyticalSolution are empty, so that they are never transposed *)
Definition exp_ana (s : cexp) (ts : list R) : res solution :=
  if Req_EM_T (ce_tau s) 0 then Err NonFinite else
  let* range := ceq Rminus (ce_init s) (ce_attr s) in
  let e t := exp (- ce_alpha s * t / ce_tau s) in
  Ok (map (fun t => map2 (fun r a => r * e t + a) range (ce_attr s)) ts,
      map (fun t => map (fun r => r * (- (ce_alpha s / ce_tau s) * e t)) range) ts).
(** set_x_attr, DynamicalSystem::set_x_init (DynamicalSystem.hpp:278) and set_tau *)
Definition exp_set_attr (s : cexp) (a : list R) : res cexp :=
  if Nat.eqb (length a) (length (ce_init s)) then Ok (Cexp (ce_tau s) (ce_init s) a (ce_alpha s)) else Err RuntimeError.
Definition exp_set_init (s : cexp) (x : list R) : res cexp :=
  if Nat.eqb (length x) (length (ce_init s)) then Ok (Cexp (ce_tau s) x (ce_attr s) (ce_alpha s)) else Err RuntimeError.
Definition exp_set_tau (s : cexp) (t : R) : cexp := Cexp t (ce_init s) (ce_attr s) (ce_alpha s).

(** SigmoidSystem.cpp:37-45; Ks_ is stored *)
Record csig := Csig { cg_tau : R; cg_init : list R; cg_rate : R; cg_infl : R; cg_ks : list R }.
(** l.65-111 *)
Definition compute_ks (n0s : list R) (r t_infl : R) : list R := map (fun n0 => n0 * (1 + 1 / exp (- r * t_infl))) n0s.
Definition new_csig (t : R) (x : list R) (r q : R) : csig := Csig t x r q (compute_ks x r (q * t)).
(** l.165-173 *)
Definition load_sig (j : json) : res csig :=
  let* t := jat j "_tau" in let* t := jnum t in
  let* r := jat j "_max_rate" in let* r := jnum r in
  let* q := jat j "_inflection_ratio" in let* q := jnum q in
  let* x := jat j "_x_init" in let* x := jvec x in
  Ok (new_csig t x r q).
(** l.49-55, l.57-63; set_y_init is inherited (DynamicalSystem.cpp:83-94) and does not compute Ks_ *)
Definition sig_set_tau (s : csig) (t : R) : csig := new_csig t (cg_init s) (cg_rate s) (cg_infl s).
Definition sig_set_x_init (s : csig) (x : list R) : res csig :=
  if Nat.eqb (length x) (length (cg_init s)) then Ok (new_csig (cg_tau s) x (cg_rate s) (cg_infl s)) else Err RuntimeError.
Definition sig_set_y_init (s : csig) (y : list R) : res csig :=
  if Nat.eqb (length y) (length (cg_init s)) then Ok (Csig (cg_tau s) y (cg_rate s) (cg_infl s) (cg_ks s)) else Err RuntimeError.
(** l.113-122 *)
Definition sig_diffeq (s : csig) (x : list R) : res (list R) :=
  if existsb (fun k => if Req_EM_T k 0 then true else false) (cg_ks s) then Err NonFinite else
  ceq (fun v k => cg_rate s * v * (1 - v / k)) x (cg_ks s).
(** l.124-163 *)
Definition sig_ana (s : csig) (ts : list R) : res solution :=
  if existsb (fun k => if Req_EM_T k 0 then true else false) (cg_init s) then Err NonFinite else
  let* bs := ceq (fun k x0 => k / x0 - 1) (cg_ks s) (cg_init s) in
  let e t := exp (- cg_rate s * t) in
  Ok (map (fun t => map2 (fun k b => k / (1 + b * e t)) (cg_ks s) bs) ts,
      map (fun t => map2 (fun k b => k * cg_rate s * b * / Rsqr (1 + b * e t) * e t) (cg_ks s) bs) ts).

(** TimeSystem.cpp:40-45, 118-125; the initial state follows from count_down *)
Record ctime := Ctime { ct_tau : R; ct_down : bool }.
Definition ct_init (s : ctime) : list R := [if ct_down s then 1 else 0].
Definition load_time (j : json) : res ctime :=
  let* t := jat j "_tau" in let* t := jnum t in
  let* d := jat j "_count_down" in let* d := jpos d in
  Ok (Ctime t d).
(** l.49-67 *)
Definition time_diffeq (s : ctime) (x : list R) : res (list R) :=
  match x with
  | [] => Err RuntimeError
  | v :: _ =>
    if (if ct_down s then (if Rlt_dec 0 v then true else false) else (if Rlt_dec v 1 then true else false))
    then (if Req_EM_T (ct_tau s) 0 then Err NonFinite else Ok [(if ct_down s then -1 else 1) / ct_tau s])
    else Ok [0]
  end.
(** l.87-94: index of the first time after tau *)
Fixpoint stop_index (tau : R) (ts : list R) : nat :=
  match ts with [] => 0 | t :: ts' => if Rlt_dec tau t then 0 else S (stop_index tau ts') end.
(** l.69-116 *)
Definition time_ana (s : ctime) (ts : list R) : res solution :=
  if Req_EM_T (ct_tau s) 0 then Err NonFinite else
  let k := stop_index (ct_tau s) ts in
  let top := firstn k ts in
  let bottom := skipn k ts in
  Ok (map (fun t => [if ct_down s then - t / ct_tau s + 1 else t / ct_tau s]) top ++
      map (fun _ => [if ct_down s then 0 else 1]) bottom,
      map (fun _ => [(if ct_down s then -1 else 1) / ct_tau s]) top ++ map (fun _ => [0]) bottom)%list.

(** DynamicalSystem.cpp:150-171; an unknown class gives a null pointer. A SpringDamperSystem is not
    among the systems the model uses as phase or gating system. *)
Inductive csub := CE (s : cexp) | CS (s : csig) | CT (s : ctime).
Definition load_sub (j : json) : res (option csub) :=
  let* c := jat j "class" in let* c := jstr c in
  if String.eqb c "ExponentialSystem" then let* s := load_exp j in Ok (Some (CE s))
  else if String.eqb c "SigmoidSystem" then let* s := load_sig j in Ok (Some (CS s))
  else if String.eqb c "SpringDamperSystem" then Err Unmodelled
  else if String.eqb c "TimeSystem" then let* s := load_time j in Ok (Some (CT s))
  else Ok None.
Definition csub_init (s : csub) : list R :=
  match s with CE s => ce_init s | CS s => cg_init s | CT s => ct_init s end.
Definition csub_set_tau (s : csub) (t : R) : csub :=
  match s with CE s => CE (exp_set_tau s t) | CS s => CS (sig_set_tau s t) | CT s => CT (Ctime t (ct_down s)) end.
Definition csub_diffeq (s : csub) (x : list R) : res (list R) :=
  match s with CE s => exp_diffeq s x | CS s => sig_diffeq s x | CT s => time_diffeq s x end.
Definition csub_ana (s : csub) (ts : list R) : res solution :=
  match s with CE s => exp_ana s ts | CS s => sig_ana s ts | CT s => time_ana s ts end.

(** SpringDamperSystem.cpp:37-56. The attractor is not stored in the model: all methods of Dmp set it
    before they use it. The initial state is y0 followed by zeros (DynamicalSystem.cpp:83-94). *)
Record cspring := Cspring { cd_tau : R; cd_y0 : list R; cd_damp : R; cd_k : R; cd_mass : R }.
(** with the default arguments (SpringDamperSystem.hpp:60-63) *)
Definition new_cspring (t : R) (y0 : list R) (damp : R) : cspring := Cspring t y0 damp (damp * damp / 4) 1.
Definition cspring_init (s : cspring) : list R := (cd_y0 s ++ repeat 0 (length (cd_y0 s)))%list.
(** l.60-91 *)
Definition cspring_diffeq (s : cspring) (attr x : list R) : res (list R) :=
  let n := length (cd_y0 s) in
  if negb (Nat.eqb (length x) (2 * n) && Nat.eqb (length attr) n) then Err RuntimeError else
  if Req_EM_T (cd_mass s * cd_tau s) 0 then Err NonFinite else
  if Req_EM_T (cd_tau s) 0 then Err NonFinite else
  let y := firstn n x in
  let z := skipn n x in
  Ok (map (fun v => v / cd_tau s) z ++
      map2 (fun e v => (- cd_k s * e - cd_damp s * v) / (cd_mass s * cd_tau s)) (map2 Rminus y attr) z)%list.

(** ** src/functionapproximators *)
Section Approximators.
(** exp of the basis functions *)
Variable ex : R -> R.

(** BasisFunction.cpp:166 *)
Definition bump (x c w : R) : res R :=
  if Req_EM_T w 0 then (if Req_EM_T x c then Err NonFinite else Ok 0) else Ok (ex (- 0.5 * (x - c)^2 / (w * w))).
(** l.154-168: activation of basis function b for one input. asymmetric_kernels is false in all objects
    read from JSON. *)
Fixpoint kernel (x c w : list R) (acc : R) : res R :=
  match x, c, w with
  | a :: x', b :: c', d :: w' => let* g := bump a b d in kernel x' c' w' (acc * g)
  | _, _, _ => Ok acc
  end.
(** l.171-185 *)
Definition normalized (row : list R) : list R :=
  map (fun a => if Req_EM_T (rsum row) 0 then 1 / INR (length row) else a / rsum row) row.
(** l.108-188, for one input *)
Definition cactivations (c w : mat) (x : list R) (norm : bool) : res (list R) :=
  if negb (Nat.eqb (nrows c) (nrows w) && Nat.eqb (mcols c) (mcols w) && Nat.eqb (mcols c) (length x)) then Err RuntimeError else
  if (norm && Nat.eqb (nrows c) 1)%bool then Ok [1] else
  let* row := mapM (fun b => kernel x (nth b (mrows c) []) (nth b (mrows w) []) 1) (seq 0 (nrows c)) in
  Ok (if norm then normalized row else row).

Inductive cfa := CRbfn (centers widths weights : mat) | CLwr (centers widths slopes offsets : mat).
(** FunctionApproximatorRBFN.cpp:40-55, 98-105 *)
Definition load_rbfn (j : json) : res cfa :=
  let* jm := jat j "_model_params" in
  let* c := jat jm "centers" in let* c := jmat c in
  let* w := jat jm "widths" in let* w := jmat w in
  let* v := jat jm "weights" in let* v := jmat v in
  if (Nat.eqb (nrows c) (nrows w) && Nat.eqb (nrows c) (nrows v) && Nat.eqb (mcols c) (mcols w) && Nat.eqb (mcols v) 1)%bool
  then Ok (CRbfn c w v) else Err RuntimeError.
(** FunctionApproximatorLWR.cpp:41-66, 214-222 *)
Definition load_lwr (j : json) : res cfa :=
  let* jm := jat j "_model_params" in
  let* c := jat jm "centers" in let* c := jmat c in
  let* w := jat jm "widths" in let* w := jmat w in
  let* s := jat jm "slopes" in let* s := jmat s in
  let* o := jat jm "offsets" in let* o := jmat o in
  if (Nat.eqb (nrows c) (nrows w) && Nat.eqb (mcols c) (mcols w) && Nat.eqb (nrows c) (nrows s) &&
      Nat.eqb (mcols c) (mcols s) && Nat.eqb (nrows c) (nrows o) && Nat.eqb (mcols o) 1)%bool
  then Ok (CLwr c w s o) else Err RuntimeError.
(** FunctionApproximator.cpp:38-53 *)
Definition load_fa (j : json) : res (option cfa) :=
  let* c := jat j "class" in let* c := jstr c in
  if String.eqb c "FunctionApproximatorRBFN" then let* f := load_rbfn j in Ok (Some f)
  else if String.eqb c "FunctionApproximatorLWR" then let* f := load_lwr j in Ok (Some f)
  else Ok None.
(** FunctionApproximatorRBFN.cpp:57-96, FunctionApproximatorLWR.cpp:68-109 and 145-170, for one input *)
Definition cpredict (f : cfa) (x : list R) : res R :=
  match f with
  | CRbfn c w v =>
    let* a := cactivations c w x false in
    Ok (rsum (map (fun b => nth b a 0 * mget v b 0) (seq 0 (nrows c))))
  | CLwr c w s o =>
    let lines := map (fun b => rsum (map2 Rmult x (nth b (mrows s) [])) + mget o b 0) (seq 0 (nrows c)) in
    let* a := cactivations c w x true in
    Ok (rsum (map2 Rmult lines a))
  end.

(** ** src/dmp/Dmp.cpp *)
Record cdmp := Cdmp {
  cm_tau : R; cm_y0 : list R; cm_attr : list R; cm_spring : cspring; cm_goal : option cexp;
  cm_phase : option csub; cm_gating : option csub; cm_scaling : string; cm_amps : list R; cm_fas : list (option cfa) }.
Definition cdim (c : cdmp) : nat := length (cm_y0 c).
(** l.85-100, 188-239 *)
Definition new_cdmp (t : R) (y0 attr : list R) (fas : list (option cfa)) (damp : R) (goal : option cexp)
    (phase gating : option csub) (scaling : string) (amps : list R) : res cdmp :=
  let* goal := match goal with None => Ok None | Some g => let* g := exp_set_init g y0 in Ok (Some g) end in
  if (String.eqb scaling "AMPLITUDE_SCALING" && negb (Nat.eqb (length amps) (length y0)))%bool then Err RuntimeError else
  if (negb (Nat.eqb (length fas) 0) && negb (Nat.eqb (length fas) (length y0)))%bool then Err RuntimeError else
  Ok (Cdmp t y0 attr (new_cspring t y0 damp) goal phase gating scaling amps fas).
(** l.545-578. [jat_index] is j.at(i) of an array. *)
Definition jat_index (j : json) (i : nat) : res json :=
  match j with JArr l => match nth_error l i with Some v => Ok v | None => Err KeyError end | _ => Err TypeError end.
Definition load_dmp (j : json) : res cdmp :=
  let* t := jat j "_tau" in let* t := jnum t in
  let* sp := jat j "_spring_system" in let* d := jat sp "damping_coefficient" in let* d := jnum d in
  let* y0 := jat j "_y_init" in let* y0 := jvec y0 in
  let* a := jat j "_y_attr" in let* a := jvec a in
  let* g := jat j "_goal_system" in let* g := load_exp g in
  let* ph := jat j "_phase_system" in let* ph := load_sub ph in
  let* ga := jat j "_gating_system" in let* ga := load_sub ga in
  let* sc := jat j "_forcing_term_scaling" in let* sc := jstr sc in
  let* am := jat j "_scaling_amplitudes" in let* am := jvec am in
  let* fs := jat j "_function_approximators" in
  let* fas := match fs with
              | JArr _ => mapM (fun i => let* f := jat_index fs i in load_fa f) (seq 0 (length a))
              | _ => Ok []
              end in
  new_cdmp t y0 a fas d (Some g) ph ga sc am.

(** l.159-186: the subsystems of a DMP constructed by its type, in C++. Not modelled: dim() of objects
    constructed in this way is the number of dimensions (l.122, DynamicalSystem.cpp:40-41), not
    3 * dim_y() + 2, so that integrateStart (l.253-262) fails for them. *)
Definition native_subs (ty : dmp_type) (t : R) (y0 attr : list R) : option cexp * option csub * option csub :=
  match ty with
  | Ijspeert => (None, Some (CE (Cexp t [1] [0] 4)), Some (CE (Cexp t [1] [0] 4)))
  | Kulvicius | Countdown =>
    (Some (Cexp t y0 attr 15), Some (CT (Ctime t (match ty with Countdown => true | _ => false end))),
     Some (CS (new_csig t [1] (-10) (0.9 * t))))
  | Sct23 _ _ => (None, None, None)
  end.
(** l.113-125 *)
Definition new_native (ty : dmp_type) (t : R) (y0 attr : list R) (fas : list (option cfa)) (scaling : string) (amps : list R) : res cdmp :=
  let '(go, ph, ga) := native_subs ty t y0 attr in
  new_cdmp t y0 attr fas 20 go ph ga scaling amps.

Definition deref {A} (o : option A) : res A := match o with Some a => Ok a | None => Err RuntimeError end.
(** function_approximators_[i_dim]->predict(...) for all dimensions *)
Definition cpredictions (c : cdmp) (ph : R) : res (list R) :=
  mapM (fun i => let* f := deref (nth_error (cm_fas c) i) in let* f := deref f in cpredict f [ph]) (seq 0 (cdim c)).
(** l.321-329, l.432-440: scale one row of forcing terms *)
Definition cscale (c : cdmp) (f : list R) : res (list R) :=
  if String.eqb (cm_scaling c) "G_MINUS_Y0_SCALING" then
    let* d := ceq Rminus (cm_attr c) (cm_y0 c) in ceq Rmult f d
  else if String.eqb (cm_scaling c) "AMPLITUDE_SCALING" then ceq Rmult f (cm_amps c)
  else Ok f.
(** zd + f / tau *)
Definition cadd_forcing (t : R) (n : nat) (f xd : list R) : res (list R) :=
  if Req_EM_T t 0 then Err NonFinite else
  let* z := ceq (fun z f => z + f / t) (skipn n xd) f in Ok (firstn n xd ++ z)%list.
Definition cset_goal (c : cdmp) (g : option cexp) : cdmp :=
  Cdmp (cm_tau c) (cm_y0 c) (cm_attr c) (cm_spring c) g (cm_phase c) (cm_gating c) (cm_scaling c) (cm_amps c) (cm_fas c).
(** l.281-335: the new object and xd. The state is y, z, goal, phase, gating. *)
Definition c_diffeq (c : cdmp) (x : list R) : res (cdmp * list R) :=
  let n := cdim c in
  if negb (Nat.eqb (length x) (3 * n + 2)) then Err RuntimeError else
  let xspring := firstn (2 * n) x in
  let xgoal := firstn n (skipn (2 * n) x) in
  let ph := nth (3 * n) x 0 in
  let ga := nth (3 * n + 1) x 0 in
  let* (goal, attr, xdgoal) :=
    match cm_goal c with
    | None => Ok (None, cm_attr c, repeat 0 n)
    | Some g => let* g := exp_set_attr g (cm_attr c) in
                let* xd := exp_diffeq g xgoal in
                Ok (Some g, xgoal, xd)
    end in
  let* xdspring := cspring_diffeq (cm_spring c) attr xspring in
  let* phs := deref (cm_phase c) in let* xdph := csub_diffeq phs [ph] in
  let* gas := deref (cm_gating c) in let* xdga := csub_diffeq gas [ga] in
  let* fa := cpredictions c ph in
  let* f := cscale c (map (Rmult ga) fa) in
  let* xdspring := cadd_forcing (cm_tau c) n f xdspring in
  Ok (cset_goal c goal, xdspring ++ xdgoal ++ xdph ++ xdga)%list.
(** l.251-279 *)
Definition c_start (c : cdmp) : res (cdmp * list R * list R) :=
  let* (goal, xgoal) :=
    match cm_goal c with
    | None => Ok (None, cm_attr c)
    | Some g => let* g := exp_set_init g (cm_y0 c) in
                let* _ := exp_diffeq g (ce_init g) in Ok (Some g, ce_init g)
    end in
  let sp := cm_spring c in
  let* _ := cspring_diffeq sp xgoal (cspring_init sp) in
  let* phs := deref (cm_phase c) in let* _ := csub_diffeq phs (csub_init phs) in
  let* gas := deref (cm_gating c) in let* _ := csub_diffeq gas (csub_init gas) in
  let x := (cspring_init sp ++ xgoal ++ csub_init phs ++ csub_init gas)%list in
  let* r := c_diffeq (cset_goal c goal) x in
  Ok (fst r, x, snd r).

(** DynamicalSystem.cpp:111-122, 124-148. The changes of the object made by c_diffeq are left out: they
    do not change the rates (CppProofs8.goal_idem). *)
Definition c_rate (c : cdmp) (x : list R) : res (list R) := let* p := c_diffeq c x in Ok (snd p).
Definition c_euler (c : cdmp) (dt : R) (x : list R) : res (list R * list R) :=
  if Rlt_dec 0 dt then
    if negb (Nat.eqb (length x) (3 * cdim c + 2)) then Err RuntimeError else
    let* xd := c_rate c x in
    Ok (map2 (fun u v => u + dt * v) x xd, xd)
  else Err RuntimeError.
Definition c_rk (c : cdmp) (dt : R) (x : list R) : res (list R * list R) :=
  if Rlt_dec 0 dt then
    if negb (Nat.eqb (length x) (3 * cdim c + 2)) then Err RuntimeError else
    let* k1 := c_rate c x in
    let* k2 := c_rate c (map2 (fun u v => u + dt * 0.5 * v) x k1) in
    let* k3 := c_rate c (map2 (fun u v => u + dt * 0.5 * v) x k2) in
    let* k4 := c_rate c (map2 (fun u v => u + dt * v) x k3) in
    let s := map2 Rplus (map2 (fun a b => a + 2 * b) k1 (map2 Rplus k2 k3)) k4 in
    let x' := map2 (fun u v => u + dt * v / 6) x s in
    let* xd := c_rate c x' in
    Ok (x', xd)
  else Err RuntimeError.

(** l.485-505: state and rate of change of the spring system at one time. [first]: l.485-486 leave the
    first part of the rates as computed by the spring system. *)
Definition cspring_at (c : cdmp) (first : bool) (attr x f : list R) : res (list R) :=
  let n := cdim c in
  let sp := new_cspring (cm_tau c) (cm_y0 c) (cd_damp (cm_spring c)) in
  let* xd := cspring_diffeq sp attr x in
  let* xd := cadd_forcing (cm_tau c) n f xd in
  if first then Ok xd else Ok (map (fun v => v / cm_tau c) (skipn n x) ++ skipn n xd)%list.
(** l.488-505; t, x, xd: previous time, state and rate of change *)
Fixpoint cspring_loop (c : cdmp) (t : R) (x xd : list R) (ds : list (R * list R * list R)) : res (list (list R * list R)) :=
  match ds with
  | [] => Ok []
  | (t', g, f) :: ds' =>
    let x' := map2 (fun u v => u + (t' - t) * v) x xd in
    let* xd' := cspring_at c false g x' f in
    let* rest := cspring_loop c t' x' xd' ds' in
    Ok ((x', xd') :: rest)
  end.
(** l.469-505 *)
Definition cspring_rows (c : cdmp) (ds : list (R * list R * list R)) : res (list (list R * list R)) :=
  match ds with
  | [] => Err RuntimeError
  | (t, g, f) :: ds' =>
    let x := cspring_init (new_cspring (cm_tau c) (cm_y0 c) (cd_damp (cm_spring c))) in
    let* xd := cspring_at c true g x f in
    let* rest := cspring_loop c t x xd ds' in
    Ok ((x, xd) :: rest)
  end.
Fixpoint zip4 (a b c d : list (list R)) : list (list R) :=
  match a, b, c, d with
  | p :: a', q :: b', r :: c', s :: d' => (p ++ q ++ r ++ s)%list :: zip4 a' b' c' d'
  | _, _, _, _ => []
  end.
Fixpoint zip3 {A B C} (a : list A) (b : list B) (c : list C) : list (A * B * C) :=
  match a, b, c with
  | p :: a', q :: b', r :: c' => (p, q, r) :: zip3 a' b' c'
  | _, _, _ => []
  end.
(** transposeInPlace of a matrix with [cols] columns *)
Definition ctranspose (cols : nat) (rows : list (list R)) : list (list R) :=
  map (fun j => map (fun r => nth j r 0) rows) (seq 0 cols).
(** l.390-511. [shape] is the number of rows and columns of the matrix xs passed by the caller. The
    results are xs, xds, forcing terms and outputs of the function approximators. *)
Definition c_ana (c : cdmp) (shape : nat * nat) (ts : list R)
  : res (list (list R) * list (list R) * list (list R) * list (list R)) :=
  let n := cdim c in
  let transposed := (Nat.eqb (fst shape) (3 * n + 2) && Nat.eqb (snd shape) (length ts))%bool in
  if Nat.eqb (length ts) 0 then Err RuntimeError else
  let* phs := deref (cm_phase c) in let* (xs_phase, xds_phase) := csub_ana phs ts in
  let* gas := deref (cm_gating c) in let* (xs_gating, xds_gating) := csub_ana gas ts in
  let* fas := mapM (fun r => cpredictions c (nth 0 r 0)) xs_phase in
  let* fts := mapM (fun p => cscale c (map (fun v => v * nth 0 (snd p) 0) (fst p))) (combine fas xs_gating) in
  let* (xs_goal, xds_goal) :=
    match cm_goal c with
    | None => Ok (map (fun _ => cm_attr c) ts, map (fun _ => repeat 0 n) ts)
    | Some g => exp_ana g ts
    end in
  let* sps := cspring_rows c (zip3 ts xs_goal fts) in
  let xs := zip4 (map fst sps) xs_goal xs_phase xs_gating in
  let xds := zip4 (map snd sps) xds_goal xds_phase xds_gating in
  Ok (if transposed then ctranspose (3 * n + 2) xs else xs,
      if transposed then ctranspose (3 * n + 2) xds else xds, fts, fas).

(** l.513-543 *)
Definition c_set_tau (c : cdmp) (t : R) : res cdmp :=
  let* phs := deref (cm_phase c) in
  let* gas := deref (cm_gating c) in
  let sp := cm_spring c in
  Ok (Cdmp t (cm_y0 c) (cm_attr c) (Cspring t (cd_y0 sp) (cd_damp sp) (cd_k sp) (cd_mass sp))
           (option_map (fun g => exp_set_tau g t) (cm_goal c)) (Some (csub_set_tau phs t)) (Some (csub_set_tau gas t))
           (cm_scaling c) (cm_amps c) (cm_fas c)).
Definition c_set_y0 (c : cdmp) (y : list R) : res cdmp :=
  if negb (Nat.eqb (length y) (cdim c)) then Err RuntimeError else
  let sp := cm_spring c in
  let* g := match cm_goal c with None => Ok None | Some g => let* g := exp_set_init g y in Ok (Some g) end in
  Ok (Cdmp (cm_tau c) y (cm_attr c) (Cspring (cd_tau sp) y (cd_damp sp) (cd_k sp) (cd_mass sp)) g
           (cm_phase c) (cm_gating c) (cm_scaling c) (cm_amps c) (cm_fas c)).
Definition c_set_attr (c : cdmp) (y : list R) : res cdmp :=
  let* g := match cm_goal c with None => Ok None | Some g => let* g := exp_set_attr g y in Ok (Some g) end in
  Ok (Cdmp (cm_tau c) (cm_y0 c) y (cm_spring c) g (cm_phase c) (cm_gating c) (cm_scaling c) (cm_amps c) (cm_fas c)).
(** l.354-362, stateAsPosVelAcc *)
Definition c_pos_vel_acc (c : cdmp) (x xd : list R) : res (list R * list R * list R) :=
  let n := cdim c in
  if Req_EM_T (cm_tau c) 0 then Err NonFinite else
  Ok (firstn n x, firstn n xd, map (fun v => v / cm_tau c) (firstn n (skipn n xd))).

(** ** Both together *)
(** what the Python DMP predicts: _predict of RBFN and LWR for an input with one row *)
Definition py_predict (kinds : nat -> fa_kind) (i : nat) (ps : list (string * pval)) (ph : R) : res R :=
  let* l := match kinds i with
            | KRbfn => rbfn_predict ex ps (Mat 1 [[ph]])
            | KLwr => lwr_predict ex ps (Mat 1 [[ph]])
            | KOther => Err Unmodelled
            end in
  one l.
(** the DMP which the C++ program gets from the file written by Python *)
Definition transfer (kinds : nat -> fa_kind) (m : dmp) : res cdmp := load_dmp (dmp_json kinds m).
End Approximators.
