(** Specification vocabulary for the black-box optimization properties (no proofs). *)
From Coq Require Import String.
From Verif Require Import Base UpdatersModel.
Open Scope R_scope.

(** The contract of numpy's argsort: some permutation of the indices that sorts the values;
    nothing is assumed about the order of equal values. *)
Definition sorts (costs : list R) (idx : list nat) : Prop :=
  Permutation idx (seq 0 (length costs)) /\
  forall a b, (a <= b < length costs)%nat ->
    nth (nth a idx 0%nat) costs 0 <= nth (nth b idx 0%nat) costs 0.
Definition argsort_ok (argsort : list R -> list nat) : Prop :=
  forall costs, sorts costs (argsort costs).

(** the total cost of an entry: the number itself, or the first component of a vector *)
Definition has_total (c : cost) (r : R) : Prop :=
  c = CScalar r \/ exists l, c = CVec (r :: l).
Definition totals (costs : list cost) (rs : list R) : Prop := Forall2 has_total costs rs.

(** a probability vector of length n *)
Definition simplex (n : nat) (w : list R) : Prop :=
  length w = n /\ (forall x, In x w -> 0 <= x) /\ rsum w = 1.

Definition rank_method (m : string) : Prop := m = "CEM"%string \/ m = "CMA-ES"%string.

(** documented use of eliteness *)
Definition admissible (m : string) (e : elit) (n : nat) : Prop :=
  (m = "CEM"%string -> exists mu, e = EInt mu /\ (1 <= mu)%Z) /\
  (m = "CMA-ES"%string -> exists mu, e = EInt mu /\ (1 <= mu <= Z.of_nat n)%Z).

(** quadratic form and positive semi-definiteness of an n x n matrix *)
Definition quad (n : nat) (C : nat -> nat -> R) (v : nat -> R) : R :=
  sumn n (fun i => sumn n (fun j => v i * C i j * v j)).
Definition symmetric (n : nat) (C : mat) : Prop :=
  forall i j, (i < n)%nat -> (j < n)%nat -> mget C i j = mget C j i.
Definition psd (n : nat) (C : mat) : Prop :=
  symmetric n C /\ forall v : nat -> R, 0 <= quad n (mget C) v.
Definition square (n : nat) (C : mat) : Prop := mat_wf C /\ nrows C = n /\ mcols C = n.

(** value allowed by a bound *)
Definition above (b : bound) (j : nat) (x : R) : Prop :=
  match b with
  | BNone => True | BScal r => r <= x
  | BArr [r] => r <= x | BArr l => forall r, nth_error l j = Some r -> r <= x end.
Definition below (b : bound) (j : nat) (x : R) : Prop :=
  match b with
  | BNone => True | BScal r => x <= r
  | BArr [r] => x <= r | BArr l => forall r, nth_error l j = Some r -> x <= r end.

(** add a vector to every row *)
Definition shift_row (v row : list R) : list R := map2 Rplus row v.
Definition shift_mat (v : list R) (m : mat) : mat := Mat (mcols m) (map (shift_row v) (mrows m)).

Definition failure_table (costs : list cost) (m : string) (e : elit) (r : res (list R)) : Prop :=
  (r = Err IndexError <->
     In (CVec []) costs \/
     (m = "CMA-ES"%string /\ exists mu, e = EInt mu /\ (Z.of_nat (length costs) < mu)%Z)) /\
  (r = Err ValueError <-> costs = [] /\ ~ rank_method m) /\
  (r = Err ZeroDivisionError <-> ~ In (CVec []) costs /\ m = "CEM"%string /\ elit_R e = 0) /\
  (r = Err TypeError <-> ~ In (CVec []) costs /\
     exists x, e = EReal x /\ ((m = "CEM"%string /\ x <> 0) \/ m = "CMA-ES"%string)) /\
  (r = Err NonFinite <-> ~ In (CVec []) costs /\ costs <> [] /\
     exists mu, e = EInt mu /\
       ((m = "CEM"%string /\ (mu < 0 /\ Z.of_nat (length costs) <= - mu)%Z) \/
        (m = "CMA-ES"%string /\ (mu <= 0)%Z))) /\
  (forall x, r = Err x ->
     In x [IndexError; ValueError; ZeroDivisionError; TypeError; NonFinite]).

Definition u_method (u : updater) : string :=
  match u with UMean m _ => m | UDecay m _ _ => m | UAdapt a => ca_method a end.

Definition u_elit (u : updater) : elit :=
  match u with UMean _ e => e | UDecay _ e _ => e | UAdapt a => ca_elit a end.

(** the low-pass filtered (diagonal of the) scatter, before clamping *)
Definition adapted (u : covar_adapt) (d : dist) (samples : mat) (w : list R) (i j : nat) : R :=
  (1 - ca_lr u) * mget (d_covar d) i j +
  ca_lr u * (if andb (ca_diag_only u) (negb (Nat.eqb i j)) then 0 else
    sumn (nrows samples) (fun s => nth s w 0 *
      ((mget samples s i - nth i (d_mean d) 0) * (mget samples s j - nth j (d_mean d) 0)))).

(** limit of a diagonal bound in dimension i *)
Definition level_value (l : level) (i : nat) : option R :=
  match l with LScal r => Some r | LArr a => nth_error a i end.

Definition clamped (u : covar_adapt) (i : nat) (x y : R) : Prop :=
  exists x1,
  (match ca_max u with
   | None => x1 = x
   | Some lv => exists m, level_value lv i = Some m /\ x1 = Rmin x (m ^ 2) end) /\
  (match ca_min u with
   | None => y = x1
   | Some lv => exists m, level_value lv i = Some m /\ y = Rmax x1 (m ^ 2) end).

(** ** histories of covariance adaptation *)
Definition hist_ok (n : nat) (hist : list (mat * list cost)) : Prop :=
  Forall (fun sc => mat_wf (fst sc) /\ mcols (fst sc) = n) hist.

Definition level_fits (l : option level) (n : nat) : Prop :=
  match l with Some (LArr a) => (n <= length a)%nat | _ => True end.

(** ** distribution constructor *)
Definition vec_of (a : nd) (v : list R) : Prop := a = NVec v \/ exists r, a = NScal r /\ v = [r].
