(** Model of parameter vectors: functionapproximators/FunctionApproximator.py, the parameter methods
    of dmps/Dmp.py and of dmps/DmpWithSchedules.py. *)
From Coq Require Import String.
From Verif Require Import Base.
Open Scope string_scope.

(** ** FunctionApproximator.py *)
(** numpy arrays: shape and flattened data *)
Record arr := Arr { ashape : list nat; adata : list R }.
(** model parameters: None before training, numpy arrays (numpy scalars have shape ()), or other
    objects such as Python floats (which have neither shape nor flatten) *)
Inductive pval := PNone | PArr (a : arr) | PFloat (r : R).

Fixpoint lookup {V} (d : list (string * V)) (k : string) : option V :=
  match d with
  | [] => None
  | (k', v) :: d' => if String.eqb k k' then Some v else lookup d' k
  end.
Fixpoint assign {V} (d : list (string * V)) (k : string) (v : V) : list (string * V) :=
  match d with
  | [] => [(k, v)]
  | (k', v') :: d' => if String.eqb k k' then (k', v) :: d' else (k', v') :: assign d' k v
  end.

(** l.34-40: _model_params, _dim_input, _selected_param_names. The training data kept for plotting
    are left out; meta-parameters are part of the training function. *)
Record fa := Fa { f_model : list (string * pval); f_dim : option nat; f_sel : option (list string) }.
(** l.34-40, FunctionApproximator(meta_params, model_param_names) *)
Definition new_fa (names : list string) : fa := Fa (map (fun n => (n, PNone)) names) None None.

(** arguments of train and predict: vectors or matrices *)
Inductive input := In1 (l : list R) | In2 (m : mat).
(** inputs.reshape(inputs.shape[0], -1), l.50 and l.68; numpy refuses to reshape 0 rows *)
Definition as_columns (i : input) : res mat :=
  match i with
  | In1 [] => Err ValueError
  | In1 l => Ok (Mat 1 (map (fun x => [x]) l))
  | In2 m => match mrows m with [] => Err ValueError | _ => Ok m end
  end.
(** l.42-56; [train_fn] is _train with its meta-parameters and targets *)
Definition train (f : fa) (train_fn : mat -> res (list (string * pval))) (i : input) : fa * res unit :=
  match as_columns i with
  | Err e => (f, Err e)
  | Ok m => match train_fn m with
            | Err e => (f, Err e)
            | Ok ps => (Fa ps (Some (mcols m)) (f_sel f), Ok tt)
            end
  end.
(** l.82-86 *)
Definition is_trained (f : fa) : bool := match f_dim f with Some _ => true | None => false end.
(** l.58-74; [predict_fn] is _predict *)
Definition predict {B} (f : fa) (predict_fn : list (string * pval) -> mat -> res B) (i : input) : res B :=
  match f_dim f with
  | None => Err ValueError
  | Some d => let* m := as_columns i in
              if Nat.eqb (mcols m) d then predict_fn (f_model f) m else Err ValueError
  end.

(** l.108-115; a string is converted to a list with one name *)
Inductive names := NStr (s : string) | NList (l : list string).
Definition name_list (n : names) : list string := match n with NStr s => [s] | NList l => l end.
Definition fa_select (f : fa) (n : names) : fa := Fa (f_model f) (f_dim f) (Some (name_list n)).

(** np.prod of a shape. np.prod(()) is the float 1.0, which cannot be used as an index. *)
Definition prod (s : list nat) : nat := fold_right Nat.mul 1%nat s.

(** l.117-128. Without a selection the result is np.array(0), whose flattened content is one 0. *)
Fixpoint get_values (m : list (string * pval)) (sel : list string) : res (list R) :=
  match sel with
  | [] => Ok []
  | l :: sel' => match lookup m l with
                 | None => Err KeyError
                 | Some (PArr a) => let* vs := get_values m sel' in Ok (adata a ++ vs)%list
                 | Some _ => Err AttributeError
                 end
  end.
Definition fa_get (f : fa) : res (list R) :=
  match f_sel f with
  | None => Ok [0%R]
  | Some sel => if is_trained f then get_values (f_model f) sel else Err ValueError
  end.
(** l.149-157 *)
Fixpoint sizes (m : list (string * pval)) (sel : list string) : res nat :=
  match sel with
  | [] => Ok 0%nat
  | l :: sel' => match lookup m l with
                 | None => sizes m sel'
                 | Some (PArr a) => let* n := sizes m sel' in Ok (prod (ashape a) + n)%nat
                 | Some _ => Err AttributeError
                 end
  end.
Definition fa_size (f : fa) : res nat :=
  match f_sel f with None => Ok 0%nat | Some sel => sizes (f_model f) sel end.
(** l.142-147, the loop over the labels. The model is changed label by label. *)
Fixpoint set_values (m : list (string * pval)) (sel : list string) (values : list R)
  : list (string * pval) * res unit :=
  match sel with
  | [] => (m, Ok tt)
  | l :: sel' => match lookup m l with
                 | None => (m, Err KeyError)
                 | Some (PArr (Arr [] _)) => (m, Err TypeError)
                 | Some (PArr (Arr s _)) =>
                   let n := prod s in
                   if Nat.eqb (length (firstn n values)) n
                   then set_values (assign m l (PArr (Arr s (firstn n values)))) sel' (skipn n values)
                   else (m, Err ValueError)
                 | Some _ => (m, Err AttributeError)
                 end
  end.
(** l.130-147 *)
Definition fa_set (f : fa) (values : list R) : fa * res unit :=
  if is_trained f then
    match fa_size f with
    | Err e => (f, Err e)
    | Ok n => if Nat.eqb (length values) n then
                match f_sel f with
                | None => (f, Err TypeError)
                | Some sel => let '(m, r) := set_values (f_model f) sel values in
                              (Fa m (f_dim f) (f_sel f), r)
                end
              else (f, Err ValueError)
    end
  else (f, Err ValueError).

(** ** loops over function approximators: Dmp.py:682-685, 695-702, 709-714 and
    DmpWithSchedules.py:227-230, 244-252, 256-260. Function approximators of one DMP are distinct
    objects in the model. *)
Fixpoint fas_get (fs : list fa) : res (list R) :=
  match fs with
  | [] => Ok []
  | f :: fs' => if is_trained f then let* v := fa_get f in let* vs := fas_get fs' in Ok (v ++ vs)%list
                else fas_get fs'
  end.
Fixpoint fas_size (fs : list fa) : res nat :=
  match fs with
  | [] => Ok 0%nat
  | f :: fs' => if is_trained f then let* n := fa_size f in let* ns := fas_size fs' in Ok (n + ns)%nat
                else fas_size fs'
  end.
Fixpoint fas_set (fs : list fa) (values : list R) : list fa * res (list R) :=
  match fs with
  | [] => ([], Ok values)
  | f :: fs' =>
    if is_trained f then
      match fa_size f with
      | Err e => (f :: fs', Err e)
      | Ok n => match fa_set f (firstn n values) with
                | (f', Err e) => (f' :: fs', Err e)
                | (f', Ok _) => let '(fs2, r) := fas_set fs' (skipn n values) in (f' :: fs2, r)
                end
      end
    else let '(fs2, r) := fas_set fs' values in (f :: fs2, r)
  end.

(** ** Dmp.py: the parameters of a DMP: function approximators, _selected_param_names, _y_attr,
    dim_dmp(). *)
Record pdmp := Pdmp { p_fas : option (list fa); p_sel : list string; p_attr : list R; p_dim : nat }.
Definition fas_of (p : pdmp) : list fa := match p_fas p with Some fs => fs | None => [] end.
(** "goal" in names *)
Definition mem (n : string) (l : list string) : bool := existsb (String.eqb n) l.

(** l.639-655 *)
Definition dmp_select (p : pdmp) (n : names) : pdmp :=
  let ns := name_list n in
  let sel := if mem "goal" ns then ["goal"] else p_sel p in
  let rest := if mem "goal" ns then filter (fun x => negb (String.eqb x "goal")) ns else ns in
  Pdmp (option_map (map (fun f => fa_select f (NList rest))) (p_fas p)) sel (p_attr p) (p_dim p).
(** l.679-688 *)
Definition dmp_get (p : pdmp) : res (list R) :=
  let* v := fas_get (fas_of p) in
  Ok (v ++ (if mem "goal" (p_sel p) then p_attr p else []))%list.
(** l.706-718 *)
Definition dmp_size (p : pdmp) : res nat :=
  let* n := fas_size (fas_of p) in Ok (n + (if mem "goal" (p_sel p) then p_dim p else 0))%nat.
(** l.602-618, the y_attr setter, without the goal system *)
Definition set_attr (p : pdmp) (y : list R) : pdmp * res unit :=
  if Nat.eqb (length y) (p_dim p) then (Pdmp (p_fas p) (p_sel p) y (p_dim p), Ok tt)
  else (p, Err ValueError).
(** l.690-704 *)
Definition dmp_set (p : pdmp) (values : list R) : pdmp * res unit :=
  match dmp_size p with
  | Err e => (p, Err e)
  | Ok n =>
    if Nat.eqb (length values) n then
      let '(fs, r) := fas_set (fas_of p) values in
      let p' := Pdmp (option_map (fun _ => fs) (p_fas p)) (p_sel p) (p_attr p) (p_dim p) in
      match r with
      | Err e => (p', Err e)
      | Ok rest => if mem "goal" (p_sel p) then set_attr p' (firstn (p_dim p) rest) else (p', Ok tt)
      end
    else (p, Err ValueError)
  end.

(** ** DmpWithSchedules.py *)
Record sdmp := Sdmp { s_dmp : pdmp; s_scheds : list fa }.
(** l.217-218: "sched_" in n; the first six characters are removed *)
Definition is_sched (n : string) : bool :=
  (fix contains (s : string) : bool :=
     (String.prefix "sched_" s || match s with String _ r => contains r | EmptyString => false end)%bool) n.
Definition drop6 (n : string) : string := substring 6 (String.length n - 6) n.
(** l.207-223 *)
Definition sdmp_select (s : sdmp) (n : names) : sdmp :=
  let ns := name_list n in
  let sched := map drop6 (filter is_sched ns) in
  let other := filter (fun x => negb (is_sched x)) ns in
  Sdmp (dmp_select (s_dmp s) (NList other)) (map (fun f => fa_select f (NList sched)) (s_scheds s)).
(** l.225-231 *)
Definition sdmp_get (s : sdmp) : res (list R) :=
  let* v := dmp_get (s_dmp s) in let* w := fas_get (s_scheds s) in Ok (v ++ w)%list.
(** l.254-260 *)
Definition sdmp_size (s : sdmp) : res nat :=
  let* n := dmp_size (s_dmp s) in let* m := fas_size (s_scheds s) in Ok (n + m)%nat.
(** l.233-252 *)
Definition sdmp_set (s : sdmp) (values : list R) : sdmp * res unit :=
  match sdmp_size s with
  | Err e => (s, Err e)
  | Ok n =>
    if Nat.eqb (length values) n then
      match dmp_size (s_dmp s) with
      | Err e => (s, Err e)
      | Ok k =>
        let '(p, r) := if Nat.ltb 0 k then dmp_set (s_dmp s) (firstn k values) else (s_dmp s, Ok tt) in
        match r with
        | Err e => (Sdmp p (s_scheds s), Err e)
        | Ok _ => match fas_set (s_scheds s) (skipn k values) with
                  | (fs, Ok _) => (Sdmp p fs, Ok tt)
                  | (fs, Err e) => (Sdmp p fs, Err e)
                  end
        end
      end
    else (s, Err ValueError)
  end.

(** ** Bounds of schedules *)
(** min_schedules and max_schedules after the constructor (l.37-46): None, a numpy array (scalars
    become arrays), or a Python list *)
Inductive sbound := SNone | SArr (l : list R) | SList (l : list R).
(** constructor argument *)
Inductive sbound_arg := ANone | AScalar (r : R) | AArr (l : list R) | AList (l : list R).
Definition make_bound (n : nat) (a : sbound_arg) : sbound :=
  match a with
  | ANone => SNone | AScalar r => SArr (repeat r n) | AArr l => SArr l | AList l => SList l
  end.
(** "b[i] if b else None" (l.145-146): a list is true if it is not empty, an array of size 1 if its
    element is not 0, the truth value of larger arrays is a ValueError; that of an empty one is False *)
Definition bound_at (b : sbound) (i : nat) : res (option R) :=
  match b with
  | SNone => Ok None
  | SList [] => Ok None
  | SList l => let* x := nth_res l i in Ok (Some x)
  | SArr [] => Ok None
  | SArr [x] => if Req_EM_T x 0 then Ok None else let* y := nth_res [x] i in Ok (Some y)
  | SArr _ => Err ValueError
  end.
(** np.clip; numpy raises ValueError if neither bound is given *)
Definition clip (lo hi : option R) (x : R) : R :=
  let y := match lo with Some l => Rmax l x | None => x end in
  match hi with Some h => Rmin h y | None => y end.
(** the loop l.144-147 over a matrix with one column per schedule (l.142-143: a vector becomes one
    column), starting at column i *)
Fixpoint clip_columns (lo hi : sbound) (n i : nat) (m : mat) : res mat :=
  match n with
  | O => Ok m
  | S n' =>
    let* l := bound_at lo i in
    let* h := bound_at hi i in
    if Nat.ltb i (mcols m) then
      match l, h with
      | None, None => Err ValueError
      | _, _ => clip_columns lo hi n' (S i)
                  (Mat (mcols m) (map (fun r => set_nth r i (clip l h (nth i r 0%R))) (mrows m)))
      end
    else Err IndexError
  end.
(** l.138-148 *)
Definition enforce_bounds (lo hi : sbound) (n_scheds : nat) (i : input) : res input :=
  match lo, hi with
  | SNone, SNone => Ok i
  | _, _ => let m := match i with In1 l => Mat 1 (map (fun x => [x]) l) | In2 m => m end in
            let* m' := clip_columns lo hi n_scheds 0 m in Ok (In2 m')
  end.
