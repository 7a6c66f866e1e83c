(** Model of the learning-curve part of dmpbbo/bbo/LearningSession.py (l.442-509), on a session whose
    objects are the ones the optimization loops store. *)
From Coq Require Import String Ascii NArith.
From Verif Require Import Base SessionModel UpdatersModel.
Open Scope R_scope.

(** Objects. [VCosts] is a Python list of costs (numbers or vectors), [VObj] is any object that is
    pickled to JSON and has cost labels (a task or cost function); [VOther] anything else. *)
Inductive val :=
  | VInt (z : Z) | VFloat (r : R) | VArr0 (r : R) | VArr1 (l : list R) | VArr2 (rows : list (list R))
  | VCosts (l : list cost) | VObj (labels : list string) | VOther (n : nat).

(** l.422-430: arrays, lists and ints go to .txt, data frames to .csv (not used here), others to .json *)
Definition vcategory (v : val) : ext :=
  match v with
  | VInt _ | VArr0 _ | VArr1 _ | VArr2 _ | VCosts _ => Txt
  | _ => Json
  end.

Definition scalars (l : list cost) : option (list R) :=
  fold_right (fun c acc => match c, acc with CScalar r, Some rs => Some (r :: rs) | _, _ => None end)
             (Some []) l.
Definition vectors (l : list cost) : option (list (list R)) :=
  fold_right (fun c acc => match c, acc with CVec v, Some vs => Some (v :: vs) | _, _ => None end)
             (Some []) l.
Definition same_length (ls : list (list R)) : bool :=
  match ls with [] => true | x :: r => forallb (fun y => Nat.eqb (length y) (length x)) r end.

(** np.array(list of costs); mixed or ragged lists raise ValueError *)
Definition np_array_costs (l : list cost) : res val :=
  match scalars l, vectors l with
  | Some rs, _ => Ok (VArr1 rs)
  | None, Some vs => if same_length vs then Ok (VArr2 vs) else Err ValueError
  | None, None => Err ValueError
  end.

(** np.loadtxt(np.savetxt(np.atleast_1d(v))): dimensions of size one are squeezed *)
Definition squeeze1 (l : list R) : val := match l with [x] => VArr0 x | _ => VArr1 l end.
Definition squeeze2 (rows : list (list R)) : val :=
  match rows with
  | [row] => squeeze1 row
  | _ => if forallb (fun r => Nat.eqb (length r) 1) rows
         then squeeze1 (map (fun r => nth 0 r 0) rows) else VArr2 rows
  end.
Definition reload (v : val) : val :=
  match v with
  | VInt z => VArr0 (IZR z)
  | VArr0 r => VArr0 r
  | VArr1 l => squeeze1 l
  | VArr2 rows => squeeze2 rows
  | VCosts l => match np_array_costs l with
                | Ok (VArr1 rs) => squeeze1 rs
                | Ok (VArr2 rows) => squeeze2 rows
                | _ => v (* savetxt would have raised: encoding failures are not modelled *)
                end
  | _ => v
  end.
(** JSON round trips are taken to be exact *)
Definition vload (e : ext) (v : val) : val := match e with Txt => reload v | _ => v end.

Definition state : Type := world val * sess.

(** ask, returning the value of the object *)
Definition ask_val (st : state) (name : string) (iu is : idx) : state * res val :=
  let '(w', s', r) := ask vload (fst st) (snd st) name iu is in
  ((w', s'), match r with
             | Ok a => match nth_error (w_heap w') a with Some v => Ok v | None => Err Unmodelled end
             | Err e => Err e
             end).
Fixpoint ask_all (st : state) (name : string) (iu : idx) (l : list idx) : state * res (list val) :=
  match l with
  | [] => (st, Ok [])
  | i :: l' =>
    let '(st1, r) := ask_val st name iu i in
    match r with
    | Err e => (st1, Err e)
    | Ok v => let '(st2, r2) := ask_all st1 name iu l' in
              (st2, match r2 with Ok vs => Ok (v :: vs) | Err e => Err e end)
    end
  end.

(** one element of the list given to np.array in l.481-483 *)
Definition as_cost (v : val) : res cost :=
  match v with
  | VInt z => Ok (CScalar (IZR z))
  | VFloat r | VArr0 r => Ok (CScalar r)
  | VArr1 l => Ok (CVec l)
  | _ => Err Unmodelled
  end.

Definition zseq (n : Z) : list idx := map (fun j => IInt (Z.of_nat j)) (seq 0 (Z.to_nat n)).

(** l.470-483 *)
Definition get_sample_costs (st : state) (i : Z) : state * res val :=
  if exists_ (fst st) (snd st) "costs" (IInt i) INone then
    let '(st1, r) := ask_val st "costs" (IInt i) INone in
    (st1, let* v := r in
          match v with
          | VCosts l => np_array_costs l
          | VArr0 _ | VArr1 _ | VArr2 _ => Ok v
          | _ => Err Unmodelled
          end)
  else
    let '(st1, r) := ask_all st "costs" (IInt i) (zseq (s_n (snd st))) in
    (st1, let* vs := r in let* cs := mapM as_cost vs in np_array_costs cs).

Definition mean (l : list R) : R := rsum l / INR (length l).
(** np.mean(a, axis=0); the mean over zero rows is nan; a 0-d array has no axis 0 *)
Definition mean0 (a : val) : res val :=
  match a with
  | VArr1 [] | VArr2 [] => Err NonFinite
  | VArr1 l => Ok (VArr0 (mean l))
  | VArr2 (x :: rows) =>
    Ok (VArr1 (map (fun j => mean (map (fun r => nth j r 0) (x :: rows))) (seq 0 (length x))))
  | _ => Err ValueError
  end.

(** l.452-468 *)
Definition get_eval_costs (st : state) (i : Z) : state * res (val * R) :=
  if exists_ (fst st) (snd st) "cost" (IInt 0) (IStr "eval") then
    let '(st1, r) := ask_val st "cost" (IInt i) (IStr "eval") in
    (st1, let* v := r in Ok (v, IZR i * IZR (s_n (snd st))))
  else
    let '(st1, r) := get_sample_costs st i in
    (st1, let* a := r in let* v := mean0 a in Ok (v, (IZR i + 1 / 2) * IZR (s_n (snd st)))).

(** np.atleast_1d, then np.concatenate with a 1-D array *)
Definition as_row (v : val) : res (list R) :=
  match v with
  | VInt z => Ok [IZR z]
  | VFloat r | VArr0 r => Ok [r]
  | VArr1 l => Ok l
  | VCosts l => let* a := np_array_costs l in
                match a with VArr1 rs => Ok rs | _ => Err ValueError end
  | VArr2 _ => Err ValueError
  | _ => Err Unmodelled
  end.

(** l.497-501 *)
Fixpoint curve_rows (st : state) (is : list Z) : state * res (list (list R)) :=
  match is with
  | [] => (st, Ok [])
  | i :: is' =>
    let '(st1, r) := get_eval_costs st i in
    match (let* vn := r in let* row := as_row (fst vn) in Ok (snd vn :: row)) with
    | Err e => (st1, Err e)
    | Ok row => let '(st2, r2) := curve_rows st1 is' in
                (st2, match r2 with Ok rows => Ok (row :: rows) | Err e => Err e end)
    end
  end.
Definition zrange (n : Z) : list Z := map Z.of_nat (seq 0 (Z.to_nat n)).

(** l.485-509. range(None) raises TypeError. *)
Definition get_learning_curve (st : state) : state * res (list (list R) * list string) :=
  match get_n_updates (fst st) (snd st) with
  | Err e => (st, Err e)
  | Ok None => (st, Err TypeError)
  | Ok (Some n) =>
    let '(st1, r) := curve_rows st (zrange n) in
    match r with
    | Err e => (st1, Err e)
    | Ok rows =>
      let labels_of st name :=
        let '(st2, r2) := ask_val st name INone INone in
        (st2, let* v := r2 in
              match v with VObj ls => Ok (rows, ls) | _ => Err Unmodelled (* no get_cost_labels *) end) in
      if exists_ (fst st1) (snd st1) "cost_function" INone INone then labels_of st1 "cost_function"%string
      else if exists_ (fst st1) (snd st1) "task" INone INone then labels_of st1 "task"%string
      else (st1, Ok (rows, []))
    end
  end.

(** x[0] for the cost objects; indexing a number or 0-d array raises *)
Definition index0 (v : val) : res R :=
  match v with
  | VInt _ | VFloat _ => Err TypeError
  | VArr0 _ => Err IndexError
  | VArr1 l => nth_res l 0
  | VCosts (CScalar r :: _) => Ok r
  | VCosts [] => Err IndexError
  | _ => Err Unmodelled
  end.

(** l.442-450 *)
Definition get_cost_ratio (st : state) : state * res R :=
  let '(st1, r1) := get_eval_costs st 0 in
  match r1 with
  | Err e => (st1, Err e)
  | Ok (before, _) =>
    match get_n_updates (fst st1) (snd st1) with
    | Err e => (st1, Err e)
    | Ok None => (st1, Err TypeError)
    | Ok (Some n) =>
      let '(st2, r2) := get_eval_costs st1 (n - 1) in
      (st2, let* an := r2 in
            let* a := index0 (fst an) in
            let* b := index0 before in
            if Req_EM_T b 0 then Err NonFinite else Ok (a / b))
    end
  end.
