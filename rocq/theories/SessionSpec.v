(** Specification vocabulary for learning sessions. *)
From Coq Require Import String Ascii NArith.
From Verif Require Import Base SessionModel.
Open Scope string_scope.

Section SessionSpec.
Variable V : Type.
Variable category : V -> ext.
Variable load : ext -> V -> V.
Variable of_int : Z -> V.

(** the objects told during a history of calls, as they were when told, oldest first *)
Fixpoint told (ws : world V * sess) (ops : list (op V)) : list (key * V) :=
  match ops with
  | [] => []
  | o :: ops' =>
    (match o with
     | OTell a name iu is =>
       match nth_error (w_heap (fst ws)) a with
       | Some v => if owned (fst ws) a then [(get_base_name name iu is, v)] else []
       | None => []
       end
     | _ => []
     end ++ told (step category load ws o) ops')%list
  end.

(** what the constructor tells *)
Definition told_new (n : Z) (kwargs : list (string * V)) : list (key * V) :=
  (KStr "n_samples_per_update", of_int n) :: map (fun nv => (KStr (fst nv), snd nv)) kwargs.

(** the abstract view of a session: the value most recently told under a key *)
Fixpoint latest (k : key) (log : list (key * V)) : option V :=
  match log with
  | [] => None
  | (k', v) :: log' =>
    match latest k log' with
    | Some v' => Some v'
    | None => if key_eqb k k' then Some v else None
    end
  end.

(** the caller only knows objects that exist *)
Definition wf_world (w : world V) : Prop :=
  forall a, In a (w_owned w) -> (a < length (w_heap w))%nat.

(** [r] is a freshly allocated object with value v, returned by a call on world w *)
Definition returns_fresh (w : world V) (r : world V * sess * res nat) (v : V) : Prop :=
  exists w' s', r = (w', s', Ok (length (w_heap w))) /\
    w_heap w' = (w_heap w ++ [v])%list.

(** the call returns an object with value v *)
Definition returns (r : world V * sess * res nat) (v : V) : Prop :=
  exists w' s' a, r = (w', s', Ok a) /\ nth_error (w_heap w') a = Some v.

Definition only_asks (ops : list (op V)) : Prop :=
  Forall (fun o => match o with OAsk _ _ _ => True | _ => False end) ops.
End SessionSpec.
Arguments told {V}. Arguments told_new {V}. Arguments latest {V}. Arguments wf_world {V}.
Arguments returns_fresh {V}. Arguments returns {V}. Arguments only_asks {V}.

(** names and indices without "/" *)
Fixpoint plain_string (s : string) : Prop :=
  match s with EmptyString => True | String c r => c <> "/"%char /\ plain_string r end.
Definition plain_index (i : idx) : Prop := match i with IStr s => plain_string s | _ => True end.
Definition plain_op {V} (o : op V) : Prop :=
  match o with
  | OTell _ name _ is | OAsk name _ is => plain_string name /\ plain_index is
  | _ => True
  end.

(** an absent or a non-negative integer index *)
Definition natural_index (i : idx) : Prop := i = INone \/ exists z, (0 <= z)%Z /\ i = IInt z.
Definition starts_with_digit (s : string) : Prop :=
  match s with String c _ => is_digit c = true | EmptyString => False end.

(** ** Calls that store things, with explicit values *)
Inductive call (V : Type) :=
  | CTell (v : V) (name : string) (iu is : idx)
  | CEval (i : Z) (sample cost : V)
  | CUpdate (i : Z) (distribution samples costs weights : V) (distribution_new : option V).
Arguments CTell {V}. Arguments CEval {V}. Arguments CUpdate {V}.

Definition do_call {V} (category : V -> ext) (ws : world V * sess) (c : call V) : world V * sess :=
  match c with
  | CTell v name iu is => tell category (fst ws) (snd ws) v name iu is
  | CEval i x y => add_eval category (fst ws) (snd ws) i x y
  | CUpdate i d s c w dn => add_update category (fst ws) (snd ws) i d s c w dn
  end.
Definition do_calls {V} (category : V -> ext) (ws : world V * sess) (cs : list (call V)) :=
  fold_left (do_call category) cs ws.

(** the entries a call stores, oldest first *)
Definition call_log {V} (c : call V) : list (key * V) :=
  let at_ i name := get_base_name name (IInt i) INone in
  match c with
  | CTell v name iu is => [(get_base_name name iu is, v)]
  | CEval i x y => [(at_ i "eval_cost", y); (at_ i "eval_sample", x)]
  | CUpdate i d s c w dn =>
    [(at_ i "distribution", d); (at_ i "samples", s); (at_ i "costs", c); (at_ i "weights", w)]
    ++ match dn with Some d' => [(at_ i "distribution_new", d')] | None => [] end
  end%list.

(** the update numbers mentioned in calls *)
Definition update_of {V} (c : call V) : option Z :=
  match c with
  | CTell _ _ (IInt i) _ => Some i
  | CTell _ _ _ _ => None
  | CEval i _ _ => Some i
  | CUpdate i _ _ _ _ _ => Some i
  end.

(** the operation tells something under key k / modifies the object at address a *)
Definition tells_key {V} (k : key) (o : op V) : Prop :=
  match o with OTell _ name iu is => get_base_name name iu is = k | _ => False end.
Definition mutates {V} (a : nat) (o : op V) : Prop := match o with OMutate b _ => b = a | _ => False end.

Definition updates_of {V} (cs : list (call V)) : list Z := filter_some update_of cs.

(** in memory: the index of the last add_update *)
Definition last_update {V} (cs : list (call V)) : option Z :=
  fold_left (fun acc c => match c with CUpdate i _ _ _ _ _ => Some i | _ => acc end) cs None.

(** update numbers that fit into five digits *)
Definition small (z : Z) : Prop := (0 <= z < 100000)%Z.
