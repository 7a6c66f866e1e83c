(** Function approximators as a class with shared arrays. *)
From Coq Require Import String.
From Verif Require Import Base ParamModel TrajModel FaModel AliasModel.
Open Scope R_scope.

(** ** model parameters: the arrays in the dictionary _model_params, in the order of the dictionary *)
Definition model := list (string * pval).
Definition pdata (v : pval) : list R := match v with PArr a => adata a | _ => [] end.
Definition pset (d : list R) (v : pval) : pval := match v with PArr a => PArr (Arr (ashape a) d) | _ => v end.
Definition ents (m : model) : list (list R) := map (fun p => pdata (snd p)) m.
Fixpoint ents_put (i : nat) (d : list R) (m : model) : model :=
  match m, i with
  | [], _ => []
  | (n, v) :: m', O => (n, pset d v) :: m'
  | p :: m', S i' => p :: ents_put i' d m'
  end.
(** FunctionApproximator.py l.142-147: self._model_params[label] = np.reshape(values[offset : offset + n], shape),
    a view of the argument. [srcs] has the keys of the dictionary. *)
Fixpoint vec_sources (m : model) (srcs : list (string * source)) (sel : list string) (off : nat) : list (string * source) :=
  match sel with
  | [] => srcs
  | l :: sel' => match lookup m l with
                 | Some (PArr a) => vec_sources m (assign srcs l (Arg 0 off (prod (ashape a)))) sel' (off + prod (ashape a))
                 | _ => srcs
                 end
  end.
Definition kept (m : model) : list (string * source) := map (fun p => (fst p, Keep)) m.
Definition fa_sources (f : fa) (off : nat) : list source :=
  match f_sel f with
  | Some sel => map snd (vec_sources (f_model f) (kept (f_model f)) sel off)
  | None => map snd (kept (f_model f))
  end.

(** ** one function approximator. [train_fn] and [predict_fn] are _train and _predict; inputs and targets are
    vectors. [holds]: the parameters for which _train stores the array of inputs itself *)
Section Fa.
Variable train_fn : list R -> list R -> res model.
Variable predict_fn : model -> list R -> res (list R).
Variable holds : string -> bool.
Inductive f_call := FTrain | FPredict | FSelect (n : names) | FGet | FSet.
Definition f_meth (c : f_call) (f : fa) (args : list (list R)) : res (fa * list (list R)) :=
  match c, args with
  (* FunctionApproximator.py l.42-56; the dictionary is returned *)
  | FTrain, [x; t] => match x with
                      | [] => Err ValueError
                      | _ => let* ps := train_fn x t in Ok (Fa ps (Some 1%nat) (f_sel f), ents ps)
                      end
  (* l.58-74 *)
  | FPredict, [x] => let* y := predict f (fun m i => predict_fn m x) (In1 x) in Ok (f, [y])
  (* l.108-115 *)
  | FSelect n, [] => Ok (fa_select f n, [])
  (* l.117-128 *)
  | FGet, [] => let* v := fa_get f in Ok (f, [v])
  (* l.130-147 *)
  | FSet, [v] => match fa_set f v with (f', Ok _) => Ok (f', []) | (_, Err e) => Err e end
  | _, _ => Err TypeError
  end.
Definition f_put (i : nat) (d : list R) (f : fa) : fa := Fa (ents_put i d (f_model f)) (f_dim f) (f_sel f).
Definition f_binds (c : f_call) (f : fa) (args : list (list R)) (i : nat) : source :=
  match c, args with
  | FTrain, [x; t] => match train_fn x t with
                      | Ok ps => if holds (fst (nth i ps (""%string, PNone))) then Arg 0 0 (length x) else New
                      | Err _ => New
                      end
  | FSet, _ => nth i (fa_sources f 0) Keep
  | _, _ => Keep
  end.
Definition f_rets (c : f_call) (f : fa) : list rsource :=
  match c with
  | FTrain => map (fun i => RField i 0 (length (nth i (ents (f_model f)) []))) (seq 0 (length (f_model f)))
  | _ => []
  end.
Definition approximators : class :=
  Class fa f_call (fun f => length (f_model f)) (fun i f => nth i (ents (f_model f)) []) f_put f_meth f_binds f_rets.
(** a program with a function approximator; [f] has been constructed or loaded: nobody else has its arrays *)
Definition run_fa (f : fa) (args : list (list R)) (es : list (event f_call)) : list (res (list (list R))) :=
  run approximators (boot approximators f args (fun _ => New)) es.
End Fa.

(** ** several function approximators: Dmp.py l.695-702, each gets values[offset : offset + size] *)
Definition fas_arrays (fs : list fa) : list (list R) := flat_map (fun f => ents (f_model f)) fs.
Fixpoint fas_put (i : nat) (d : list R) (fs : list fa) : list fa :=
  match fs with
  | [] => []
  | f :: fs' => if Nat.ltb i (length (f_model f)) then f_put i d f :: fs' else f :: fas_put (i - length (f_model f)) d fs'
  end.
Fixpoint fas_sources (fs : list fa) (off : nat) : list source :=
  match fs with
  | [] => []
  | f :: fs' =>
    if is_trained f
    then (fa_sources f off ++ fas_sources fs' (off + match fa_size f with Ok n => n | Err _ => 0 end))%list
    else (map snd (kept (f_model f)) ++ fas_sources fs' off)%list
  end.

(** ** the four regression models, with inputs and targets given as one-dimensional arrays. GPR keeps the inputs
    (FunctionApproximatorGPR.py l.52: "inputs": inputs, and FunctionApproximator.py l.50: inputs.reshape, a view);
    the arrays of the others are computed. *)
Inductive regressor :=
  | Wls (use_offset : bool) (regularization : R) | Rbfn (n_bfs : nat) (height regularization : R)
  | Lwr (n_bfs : nat) (height regularization : R) | Gpr (max_covariance : R) (lengths : list R).
Definition as_column (x : list R) : mat := Mat 1 (map (fun a => [a]) x).
Definition reg_train (r : regressor) (x t : list R) : res (list (string * pval)) :=
  match r with
  | Wls offset reg => wls_train offset reg None (In1 t) (as_column x)
  | Rbfn n h reg => rbfn_train exp [n] h reg (In1 t) (as_column x)
  | Lwr n h reg => lwr_train exp [n] h reg (In1 t) (as_column x)
  | Gpr mc ls => gpr_train exp mc ls (In1 t) (as_column x)
  end.
Definition reg_predict (r : regressor) (ps : model) (x : list R) : res (list R) :=
  match r with
  | Wls _ _ => let* y := wls_predict ps (as_column x) in match y with In1 l => Ok l | In2 m => Ok (List.concat (mrows m)) end
  | Rbfn _ _ _ => rbfn_predict exp ps (as_column x)
  | Lwr _ _ _ => lwr_predict exp ps (as_column x)
  | Gpr _ _ => gpr_predict exp ps (as_column x)
  end.
Definition reg_holds (r : regressor) (n : string) : bool := match r with Gpr _ _ => String.eqb n "inputs" | _ => false end.
