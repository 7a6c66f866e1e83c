(** Model of the optimization loops: dmpbbo/bbo/run_optimization.py,
    dmpbbo/bbo_of_dmps/run_optimization_task.py, step_by_step_optimization.py and
    LearningSessionTask.py, on top of the learning session of SessionModel. *)
From Coq Require Import String Ascii NArith.
From Verif Require Import Base SessionModel UpdatersModel.
Open Scope string_scope.

Section Loop.
(** cost-relevant variables of a rollout; DMP objects; the rest of the world (random generators,
    simulators, counters in user code ...) *)
Variables CV P S : Type.

(** objects stored in the session; [OObj] are tasks, solvers, updaters and cost functions *)
Inductive oval :=
  | OInt (z : Z) | ODist (d : dist) | OMat (m : mat) | OVec (l : list R) | OCost (c : cost)
  | OCosts (l : list cost) | OVars (v : CV) | ODmp (p : P) | OObj (n : nat).
Variable category : oval -> ext.
Variable load : ext -> oval -> oval.

(** what the loops call: Distribution.generate_samples, CostFunction.evaluate,
    Updater.update_distribution, TaskSolver.perform_rollout, Task.evaluate_rollout. They may depend
    on and change the rest of the world, and may raise. *)
Record oracles := Oracles {
  o_gen : S -> dist -> Z -> S * res mat;
  o_eval : S -> list R -> S * res cost;
  o_upd : S -> dist -> mat -> list cost -> S * res (dist * list R);
  o_roll : S -> list R -> S * res CV;
  o_evalr : S -> CV -> list R -> S * res cost }.

(** calls that returned, with arguments and results *)
Inductive event :=
  | EGen (d : dist) (n : Z) (samples : mat)
  | EEval (x : list R) (c : cost)
  | EUpd (d : dist) (samples : mat) (costs : list cost) (d' : dist) (w : list R)
  | ERoll (x : list R) (v : CV)
  | EEvalR (v : CV) (x : list R) (c : cost).

Definition db : Type := world oval * sess.
Record st := St { st_out : S; st_trace : list event; st_db : db }.
Definition M (A : Type) : Type := st -> st * res A.
Definition ret {A} (a : A) : M A := fun s => (s, Ok a).
Definition bindM {A B} (m : M A) (k : A -> M B) : M B :=
  fun s => match m s with (s', Ok a) => k a s' | (s', Err e) => (s', Err e) end.
Notation "x <- m ;; k" := (bindM m (fun x => k)) (at level 61, m at next level, right associativity).

Variable orc : oracles.

Definition call_out {A} (f : S -> S * res A) (ev : A -> event) : M A := fun s =>
  let '(o, r) := f (st_out s) in
  match r with
  | Ok a => (St o (st_trace s ++ [ev a])%list (st_db s), Ok a)
  | Err e => (St o (st_trace s) (st_db s), Err e)
  end.
Definition m_gen d n : M mat := call_out (fun o => o_gen orc o d n) (EGen d n).
Definition m_eval x : M cost := call_out (fun o => o_eval orc o x) (EEval x).
Definition m_upd d m cs : M (dist * list R) :=
  call_out (fun o => o_upd orc o d m cs) (fun r => EUpd d m cs (fst r) (snd r)).
Definition m_roll x : M CV := call_out (fun o => o_roll orc o x) (ERoll x).
Definition m_evalr v x : M cost := call_out (fun o => o_evalr orc o v x) (EEvalR v x).

Definition on_db (f : db -> db) : M unit := fun s => (St (st_out s) (st_trace s) (f (st_db s)), Ok tt).
Definition m_tell v name iu is : M unit :=
  on_db (fun ws => tell category (fst ws) (snd ws) v name iu is).
Definition m_add_eval i x c : M unit :=
  on_db (fun ws => add_eval category (fst ws) (snd ws) i x c).
Definition m_add_update i d s c w dn : M unit :=
  on_db (fun ws => add_update category (fst ws) (snd ws) i d s c w dn).
Definition m_ask name iu is : M oval := fun s =>
  let '(w', s', r) := ask load (fst (st_db s)) (snd (st_db s)) name iu is in
  (St (st_out s) (st_trace s) (w', s'),
   match r with
   | Ok a => match nth_error (w_heap w') a with Some v => Ok v | None => Err Unmodelled end
   | Err e => Err e
   end).

Fixpoint mapMM {A B} (f : A -> M B) (l : list A) : M (list B) :=
  match l with
  | [] => ret []
  | x :: l' => y <- f x ;; ys <- mapMM f l' ;; ret (y :: ys)
  end.

(** ** run_optimization.py:48-66, one pass of the loop *)
Definition opt_update (n : Z) (i : Z) (d : dist) : M dist :=
  cost_eval <- m_eval (d_mean d) ;;
  samples <- m_gen d n ;;
  costs <- mapMM m_eval (mrows samples) ;;
  r <- m_upd d samples costs ;;
  _ <- m_add_eval i (OVec (d_mean d)) (OCost cost_eval) ;;
  _ <- m_add_update i (ODist d) (OMat samples) (OCosts costs) (OVec (snd r)) (Some (ODist (fst r))) ;;
  ret (fst r).
Fixpoint opt_loop (n : Z) (i : nat) (k : nat) (d : dist) : M dist :=
  match k with
  | O => ret d
  | Datatypes.S k' => d' <- opt_update n (Z.of_nat i) d ;; opt_loop n (Datatypes.S i) k' d'
  end.
(** run_optimization.py:23-68: the new session is made from the world w0 and the directory r *)
Definition run_optimization (w0 : world oval) (r : rootdir) (cost_function updater : oval)
    (d0 : dist) (k : nat) (n : Z) : M dist := fun s =>
  opt_loop n 0 k d0
    (St (st_out s) (st_trace s)
        (new_session category OInt w0 n r [("cost_function", cost_function); ("updater", updater)])).

(** ** run_optimization_task.py:46-82 *)
Definition add_eval_task i x v c : M unit :=
  _ <- m_add_eval i x c ;; m_tell v "eval_cost_vars" (IInt i) INone.
Definition add_rollout i (j : Z) x v c : M unit :=
  _ <- m_tell x "sample" (IInt i) (IInt j) ;;
  _ <- m_tell v "cost_vars" (IInt i) (IInt j) ;;
  m_tell c "cost" (IInt i) (IInt j).
Fixpoint rollouts (i : Z) (j : nat) (xs : list (list R)) : M (list cost) :=
  match xs with
  | [] => ret []
  | x :: xs' =>
    v <- m_roll x ;;
    c <- m_evalr v x ;;
    _ <- add_rollout i (Z.of_nat j) (OVec x) (OVars v) (OCost c) ;;
    cs <- rollouts i (Datatypes.S j) xs' ;;
    ret (c :: cs)
  end.
Definition task_update (n : Z) (i : Z) (d : dist) : M dist :=
  v <- m_roll (d_mean d) ;;
  c <- m_evalr v (d_mean d) ;;
  _ <- add_eval_task i (OVec (d_mean d)) (OVars v) (OCost c) ;;
  samples <- m_gen d n ;;
  costs <- rollouts i 0 (mrows samples) ;;
  r <- m_upd d samples costs ;;
  _ <- m_add_update i (ODist d) (OMat samples) (OCosts costs) (OVec (snd r)) (Some (ODist (fst r))) ;;
  ret (fst r).
Fixpoint task_loop (n : Z) (i : nat) (k : nat) (d : dist) : M dist :=
  match k with
  | O => ret d
  | Datatypes.S k' => d' <- task_update n (Z.of_nat i) d ;; task_loop n (Datatypes.S i) k' d'
  end.
Definition run_optimization_task (w0 : world oval) (r : rootdir) (task task_solver updater : oval)
    (d0 : dist) (k : nat) (n : Z) : M dist := fun s =>
  task_loop n 0 k d0
    (St (st_out s) (st_trace s)
        (new_session category OInt w0 n r
           [("task", task); ("task_solver", task_solver); ("updater", updater)])).

(** ** LearningSessionTask.py:45-62, tell. For names containing "dmp" two files are written before
    the directory is created; the second one (for C++) has its own name. *)
Fixpoint contains (sub s : string) : bool :=
  (String.prefix sub s || match s with String _ r => contains sub r | EmptyString => false end)%bool.
Definition tell_task (v : oval) (name : string) (iu is : idx) : M unit := fun s =>
  let '(w, se) := st_db s in
  if (contains "dmp" name && not_none (s_root se))%bool then
    let dir_exists := match update_dir iu with
                      | Some dir => str_mem dir (d_dirs (w_disk w)) | None => true end in
    if dir_exists then
      let k := path (get_base_name name iu is) in
      let d := w_disk w in
      let w1 := World (w_heap w) (Disk ((k ++ "_for_cpp", Json, v) :: (k, Json, v) :: d_files d) (d_dirs d))
                      (w_owned w) in
      (St (st_out s) (st_trace s) (tell category w1 se v name iu is), Ok tt)
    else (s, Err FileNotFoundError)
  else (St (st_out s) (st_trace s) (tell category w se v name iu is), Ok tt).

(** ** step_by_step_optimization.py. Simplification: save_trajectory=False. *)
Variable dmp_get : P -> list R.
Variable dmp_set : P -> list R -> res P.

Definition lift {A} (r : res A) : M A := fun s => (s, r).
(** sample labels: 0, ..., n-1, "eval" *)
Definition labels (n : Z) : list idx :=
  (map (fun j => IInt (Z.of_nat j)) (seq 0 (Z.to_nat n)) ++ [IStr "eval"])%list.

(** l.79-92: the loop over the labels *)
Fixpoint tell_dmps (i : Z) (samples : mat) (mean : list R) (p : P) (ls : list idx) : M unit :=
  match ls with
  | [] => ret tt
  | l :: ls' =>
    x <- match l with
         | IInt j => lift (nth_res (mrows samples) (Z.to_nat j))
         | _ => ret mean
         end ;;
    p' <- lift (dmp_set p x) ;;
    _ <- tell_task (ODmp p') "dmp" (IInt i) l ;;
    tell_dmps i samples mean p' ls'
  end.
(** l.61-92, _generate_samples. The file names printed at the end are None without a directory:
    TypeError. *)
Definition generate_and_tell (d : dist) (n : Z) (i : Z) : M unit :=
  samples <- m_gen d n ;;
  _ <- m_tell (ODist d) "distribution" (IInt i) INone ;;
  _ <- m_tell (OMat samples) "samples" (IInt i) INone ;;
  v <- m_ask "dmp_initial" INone INone ;;
  match v with
  | ODmp p =>
    _ <- tell_dmps i samples (d_mean d) p (labels n) ;;
    (fun s => (s, if not_none (s_root (snd (st_db s))) then Ok tt else Err TypeError))
  | _ => lift (Err Unmodelled)
  end.
(** l.22-58 *)
Definition prepare_optimization (w0 : world oval) (r : rootdir) (task task_solver updater : oval)
    (d0 : dist) (n : Z) (dmp_initial : P) : M unit := fun s =>
  generate_and_tell d0 n 0
    (St (st_out s) (st_trace s)
        (new_session category OInt w0 n r
           [("task", task); ("task_solver", task_solver); ("distribution_initial", ODist d0);
            ("updater", updater); ("dmp_initial", ODmp dmp_initial)])).

(** costs[0] *)
Definition cost0 (c : cost) : res R :=
  match c with
  | CVec (x :: _) => Ok x
  | CVec [] => Err IndexError
  | CScalar _ => Err TypeError
  end.
(** l.113-126 *)
Fixpoint eval_labels (i : Z) (ls : list idx) : M (list R) :=
  match ls with
  | [] => ret []
  | l :: ls' =>
    vv <- m_ask "cost_vars" (IInt i) l ;;
    vp <- m_ask "dmp" (IInt i) l ;;
    match vv, vp with
    | OVars v, ODmp p =>
      c <- m_evalr v (dmp_get p) ;;
      _ <- m_tell (OCost c) "costs" (IInt i) l ;;
      match l with
      | IStr _ => eval_labels i ls'
      | _ => x <- lift (cost0 c) ;; xs <- eval_labels i ls' ;; ret (x :: xs)
      end
    | _, _ => lift (Err Unmodelled)
    end
  end.
(** l.95-142; the task and updater asked for in l.108 and l.131 are the oracles *)
Definition update_step (i : nat) : M unit :=
  vn <- m_ask "n_samples_per_update" INone INone ;;
  _ <- m_ask "task" INone INone ;;
  match vn with
  | OInt n =>
    costs <- eval_labels (Z.of_nat i) (labels n) ;;
    vd <- m_ask "distribution" (IInt (Z.of_nat i)) INone ;;
    vs <- m_ask "samples" (IInt (Z.of_nat i)) INone ;;
    _ <- m_ask "updater" INone INone ;;
    match vd, vs with
    | ODist d, OMat samples =>
      r <- m_upd d samples (map CScalar costs) ;;
      _ <- m_tell (OVec (snd r)) "weights" (IInt (Z.of_nat i)) INone ;;
      _ <- m_tell (ODist (fst r)) "distribution_new" (IInt (Z.of_nat i)) INone ;;
      generate_and_tell (fst r) n (Z.of_nat i + 1)
    | _, _ => lift (Err Unmodelled)
    end
  | _ => lift (Err Unmodelled)
  end.

(** The user's part between two steps: execute the stored DMPs and store the cost variables
    (e.g. with TaskSolverDmp.perform_rollout_dmp). *)
Variable roll_dmp : P -> res CV.
Fixpoint execute_dmps (i : Z) (ls : list idx) : M unit :=
  match ls with
  | [] => ret tt
  | l :: ls' =>
    vp <- m_ask "dmp" (IInt i) l ;;
    match vp with
    | ODmp p => v <- lift (roll_dmp p) ;;
                _ <- m_tell (OVars v) "cost_vars" (IInt i) l ;;
                execute_dmps i ls'
    | _ => lift (Err Unmodelled)
    end
  end.
Fixpoint steps (n : Z) (i k : nat) : M unit :=
  match k with
  | O => ret tt
  | Datatypes.S k' =>
    _ <- execute_dmps (Z.of_nat i) (labels n) ;; _ <- update_step i ;; steps n (Datatypes.S i) k'
  end.
End Loop.
