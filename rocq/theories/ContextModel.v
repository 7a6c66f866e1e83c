(** Model of dmpbbo/dmps/DmpContextualTwoStep.py.

    A contextual DMP owns its DMP and its policy parameter functions (function approximators which
    predict one parameter of the DMP each from the parameters of the task). Plotting is left out. *)
From Coq Require Import String.
From Verif Require Import Base DynModel ParamModel TrajModel DmpModel.
Open Scope R_scope.

(** [c_tau] is _tau of the base class (l.51). [c_ppf] is None before training (l.58). What is left
    out: the rest of the base class, dmp_function_apps, and the training data kept for plotting. *)
Record ctx := Ctx { c_dmp : dmp; c_ppf : option (list fa); c_tau : R }.

(** l.42-59 *)
Definition new_ctx (ty : dmp_type) (tau : R) (y0 attr : list R) (fas : option (list fa)) (kw : dmp_kw) : res ctx :=
  let* m := new_dmp ty tau y0 attr fas kw in Ok (Ctx m None tau).

(** np.mean of numbers and, per column, of vectors of the same size *)
Definition avg (l : list R) : R := rsum l / INR (length l).
Definition avg_rows (rows : list (list R)) : list R :=
  map (fun j => avg (map (fun r => nth j r 0) rows)) (seq 0 (length (hd [] rows))).
(** np.array of a list of vectors, which raises ValueError if their sizes differ *)
Definition as_matrix (rows : list (list R)) : res mat :=
  let d := length (hd [] rows) in
  if forallb (fun r => Nat.eqb (length r) d) rows then Ok (Mat d rows) else Err ValueError.
(** a[i] = p, where p is an array: it must have one element *)
Definition scalar (p : list R) : res R := match p with [v] => Ok v | _ => Err ValueError end.

(** l.98-109: one function approximator for each parameter, or one which is copied *)
Inductive ppf_arg := PList (l : list fa) | POne (f : fa).
Definition ppf_list (a : ppf_arg) (n : nat) : res (list fa) :=
  match a with
  | PList l => if Nat.eqb (length l) n then Ok l else Err RuntimeError
  | POne f => Ok (repeat f n)
  end.

Section Context.
(** predictions and training of the function approximators of the DMP, see DmpModel *)
Variable predict_fn : nat -> list (string * pval) -> R -> res R.
Variable train_fn : nat -> list R -> list R -> res (list (string * pval)).
(** predictions (_predict) and training (_train) of the i-th policy parameter function *)
Variable ppf_predict : nat -> list (string * pval) -> mat -> res (list R).
Variable ppf_train : nat -> mat -> list R -> res (list (string * pval)).

(** l.75-87, for one demonstration: a copy of the DMP is trained *)
Definition train_copy (m : dmp) (t : traj) : res (dmp * list R) :=
  let* m' := m_train predict_fn train_fn m t in
  let* v := m_get_params m' in
  Ok (m', v).
(** l.89-92. The getter y_init of the DMP is that of DynamicalSystem. *)
Definition set_means (m : dmp) (copies : list dmp) : res dmp :=
  let* m := set_tau m (avg (map m_tau copies)) in
  let* m := set_y0 m (avg_rows (map get_y0 copies)) in
  set_yattr m (avg_rows (map m_attr copies)).
(** l.111-114 *)
Definition train_ppf (fs : list fa) (inputs : mat) (targets : list (list R)) (n : nat) : res (list fa) :=
  mapM (fun i => let* f := nth_res fs i in
                 let '(f', r) := train f (fun x => ppf_train i x (col i targets)) (In2 inputs) in
                 let* _ := r in Ok f') (seq 0 n).
(** l.61-117. Task parameters are vectors (numbers have become vectors of size 1, l.77). Without
    demonstrations self.dmp is None, and assigning to its attributes raises AttributeError. *)
Definition c_train (c : ctx) (data : list (list R * traj)) (ns : names) (a : ppf_arg) : res ctx :=
  let m1 := m_select (c_dmp c) ns in
  let* copies := mapM (fun p => train_copy m1 (snd p)) data in
  match copies with
  | [] => Err AttributeError
  | c0 :: _ =>
    let '(m, v) := last copies c0 in
    let* m := set_means m (map fst copies) in
    let* targets := as_matrix (map snd copies) in
    let* inputs := as_matrix (map fst data) in
    let* fs := ppf_list a (length v) in
    let* ppf := train_ppf fs inputs (mrows targets) (length v) in
    Ok (Ctx m (Some ppf) (c_tau c))
  end.
(** l.119-145 *)
Definition c_from_trajs (ty : dmp_type) (data : list (list R * traj)) (fas : option (list fa)) (ns : names)
    (a : ppf_arg) (kw : dmp_kw) : res ctx :=
  let* first := nth_res data 0 in
  let t := snd first in
  let* tau := last_res (tj_ts t) in
  let* y0 := nth_res (mrows (tj_ys t)) 0 in
  let* yN := last_res (mrows (tj_ys t)) in
  let* c := new_ctx ty tau y0 yN fas kw in
  c_train c data ns a.
(** l.147-166; training copies the passed DMP. Simplification: that l.68 changes the selection of the
    passed DMP itself is not modelled. *)
Definition c_from_dmp (data : list (list R * traj)) (m : dmp) (ns : names) (a : ppf_arg) : res ctx :=
  c_train (Ctx m None (m_tau m)) data ns a.

(** l.171-175. The vector is overwritten from the start, as far as there are policy parameter
    functions; enumerate(None) raises TypeError. *)
Fixpoint fill (v : list R) (i : nat) (fs : list fa) (q : input) : res (list R) :=
  match fs with
  | [] => Ok v
  | f :: fs' => let* p := predict f (ppf_predict i) q in
                let* x := scalar p in
                if Nat.ltb i (length v) then fill (set_nth v i x) (S i) fs' q else Err IndexError
  end.
Definition set_task (c : ctx) (q : input) : ctx * res unit :=
  match (let* v := m_get_params (c_dmp c) in
         match c_ppf c with None => Err TypeError | Some fs => fill v 0 fs q end) with
  | Err e => (c, Err e)
  | Ok v => let '(m, r) := m_set_params (c_dmp c) v in (Ctx m (c_ppf c) (c_tau c), r)
  end.
(** l.177-179 *)
Definition c_ana (c : ctx) (q : input) (ts : option (list R)) (suppress : bool) : ctx * res ana_result :=
  let '(c', r) := set_task c q in
  (c', let* _ := r in m_ana predict_fn (c_dmp c') ts suppress).

(** l.181-198. The parameters are set from a matrix with one column, so that the attractor, if it is
    selected, becomes a column too. In more than one dimension, this column does not fit where the
    code uses the attractor: numpy raises ValueError. Only goal systems other than the exponential
    one, without rescaling, do not use it. *)
Definition column_fails (m : dmp) : bool :=
  mem "goal" (m_sel m) && Nat.leb 2 (m_dim m) &&
  match m_goal m with
  | None | Some (SubE _) => true
  | _ => m_req m || match m_scaling m with GMinusY0 => true | _ => false end
  end.
Definition c_start (c : ctx) (q : input) (y : option (list R)) : res (ctx * list R * list R) :=
  let* n := dmp_size (pdmp_of (c_dmp c)) in
  let* v := mapM (fun i => match c_ppf c with
                           | None => Err TypeError
                           | Some fs => let* f := nth_res fs i in
                                        let* p := predict f (ppf_predict i) q in scalar p
                           end) (seq 0 n) in
  let '(m, r) := m_set_params (c_dmp c) v in
  let* _ := r in
  if column_fails m then Err ValueError else
  let* s := m_start predict_fn m y in
  let '(m', x, xd) := s in
  Ok (Ctx m' (c_ppf c) (c_tau c), x, xd).
(** l.200-201 *)
Definition c_diffeq (c : ctx) (x : list R) : res (ctx * list R) :=
  let* p := m_diffeq predict_fn (c_dmp c) x in
  Ok (Ctx (fst p) (c_ppf c) (c_tau c), snd p).
(** the setter of tau is that of the base class (DynamicalSystem.py:59-65) *)
Definition c_set_tau (c : ctx) (t : R) : ctx := Ctx (c_dmp c) (c_ppf c) t.
(** l.209-210 *)
Definition c_decouple (c : ctx) : ctx := Ctx (m_decouple (c_dmp c)) (c_ppf c) (c_tau c).
End Context.
