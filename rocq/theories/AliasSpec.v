(** Vocabulary for the properties of shared memory (C97). *)
From Coq Require Import String.
From Verif Require Import Base DynModel ParamModel DmpModel AliasModel AliasDyn AliasFa AliasDmp.
Open Scope R_scope.

(** ** What a program does if arrays are passed by value: every array of the caller is its own, and the
    object has the values it was given. *)
Section Values.
Context {O C : Type}.
Variable meth : C -> O -> list (list R) -> res (O * list (list R)).
Fixpoint by_value (o : O) (vars : list (list R)) (es : list (event C)) : list (res (list (list R))) :=
  match es with
  | [] => []
  | ENew v :: es' => by_value o (vars ++ [v])%list es'
  | EWrite k i v :: es' =>
    let a := nth k vars [] in
    if Nat.ltb i (length a) then by_value o (set_nth vars k (set_nth a i v)) es' else [Err IndexError]
  | ECall c ks :: es' =>
    match meth c o (map (fun k => nth k vars []) ks) with
    | Err e => [Err e]
    | Ok (o', rs) => Ok rs :: by_value o' (vars ++ rs)%list es'
    end
  end.

(** ** Programs which never change an array in place after they have passed it to a method that keeps it, nor
    an array which a method has shared with them. [keeps c o]: the arguments that c keeps; [shares c o]:
    the results that c shares (o after the call); [tied]: the arrays concerned so far. A program passes only arrays which it has. *)
Variable keeps : C -> O -> list nat.
Variable shares : C -> O -> list nat.
Fixpoint careful (o : O) (vars : list (list R)) (tied : list nat) (es : list (event C)) : Prop :=
  match es with
  | [] => True
  | ENew v :: es' => careful o (vars ++ [v])%list tied es'
  | EWrite k i v :: es' =>
    ~ In k tied /\ careful o (set_nth vars k (set_nth (nth k vars []) i v)) tied es'
  | ECall c ks :: es' =>
    Forall (fun k => k < length vars)%nat ks /\
    match meth c o (map (fun k => nth k vars []) ks) with
    | Err _ => True
    | Ok (o', rs) =>
      careful o' (vars ++ rs)%list
              (map (fun j => nth j ks 0%nat) (keeps c o) ++ map (fun j => (length vars + j)%nat) (shares c o') ++ tied)%list es'
    end
  end.
End Values.

(** ** Dynamical systems: the arrays which are kept or shared. *)
(** setters keep the array they are given, except y_init, which only SigmoidSystem keeps *)
Definition sys_keeps (c : a_call) (o : asys) : list nat :=
  match c with
  | ASetX | ASetAttr | ASetPar _ => [0%nat]
  | ASetY | AStartAt => match o with AS _ => [0%nat] | _ => [] end
  | _ => []
  end.
(** getters return the array of the object, and so does integrate_start (the state) *)
Definition sys_shares (c : a_call) (o : asys) : list nat :=
  match c with AGetX | AGetY | AGetAttr | AStart | AStartAt => [0%nat] | _ => [] end.
(** constructors keep the attractor and all parameters which are arrays; they copy the initial state *)
Definition arrays (l : list carg) : list nat := flat_map (fun p => match p with CArr k => [k] | CScal _ => [] end) l.
Definition ctor_keeps (c : ctor) : list nat :=
  match c with
  | NewExponential _ alpha => 1%nat :: arrays [alpha]
  | NewSigmoid _ rate infl => arrays [rate; infl]
  | NewRichards _ infl alpha v => 1%nat :: arrays [infl; alpha; v]
  | NewTime _ _ => []
  | NewSpring _ damp spring mass => 1%nat :: arrays ([damp; mass] ++ match spring with Some k => [k] | None => [] end)
  end.
(** programs that respect this, and what they do if arrays are passed by value *)
Definition careful_system (c : ctor) (args : list (list R)) (es : list (event a_call)) : Prop :=
  match construct c args with
  | Ok o => careful a_meth sys_keeps sys_shares o args (ctor_keeps c) es
  | Err _ => True
  end.
Definition by_value_system (c : ctor) (args : list (list R)) (es : list (event a_call)) : res (list (res (list (list R)))) :=
  let* o := construct c args in Ok (by_value a_meth o args es).

(** ** Function approximators: set_param_vector keeps its argument (the parameters become views of it); train may
    keep the inputs (GPR does) and returns the dictionary with the arrays of the model. *)
Definition fa_keeps (c : f_call) (f : fa) : list nat := match c with FTrain | FSet => [0%nat] | _ => [] end.
Definition fa_shares (c : f_call) (f : fa) : list nat := match c with FTrain => seq 0 (length (f_model f)) | _ => [] end.

(** ** DMPs: setters, set_param_vector and train (the times and the positions of the trajectory) keep their arguments,
    and so does the constructor (the attractor, and parameters which are arrays). Getters share. *)
Definition dmp_keeps (c : m_call) (m : dmp) : list nat :=
  match c with MSetY | MSetAttr | MSetParams => [0%nat] | MTrain => [0%nat; 1%nat] | _ => [] end.
Definition dmp_shares (c : m_call) (m : dmp) : list nat :=
  match c with MGetX | MGetY | MGetAttr | MGetTs => [0%nat] | _ => [] end.
Definition mctor_keeps (c : mctor) : list nat :=
  (1%nat :: match n_alpha c with Some p => arrays [p] | None => [] end ++ match n_amps c with Some k => [k] | None => [] end)%list.
Section Dmps.
Variable predict_fn : nat -> list (string * pval) -> R -> res R.
Variable train_fn : nat -> list R -> list R -> res (list (string * pval)).
Definition careful_dmp (c : mctor) (args : list (list R)) (es : list (event m_call)) : Prop :=
  match m_construct c args with
  | Ok m => careful (m_meth predict_fn train_fn) dmp_keeps dmp_shares m args (mctor_keeps c) es
  | Err _ => True
  end.
Definition by_value_dmp (c : mctor) (args : list (list R)) (es : list (event m_call)) : res (list (res (list (list R)))) :=
  let* m := m_construct c args in Ok (by_value (m_meth predict_fn train_fn) m args es).
End Dmps.
