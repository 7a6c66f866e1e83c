(** Base vocabulary shared by all models: exceptions as values, lists, sums.
    No dmpbbo code is modelled in this file. *)
From Coq Require Export List Arith ZArith Lia Bool Permutation.
From Coq Require Export Reals Lra.
Export ListNotations.
Open Scope R_scope.

(** Python exceptions that the modelled code can raise. [NonFinite] is not an exception: it marks
    results in which numpy would put nan or inf. [Unmodelled] marks inputs outside the modelled
    domain (exotic numpy broadcasting); no theorem says anything about those. *)
Inductive exn :=
  ValueError | KeyError | IndexError | TypeError | AttributeError | ZeroDivisionError
| IOError | FileNotFoundError | LinAlgError | RuntimeError | NonFinite | Unmodelled.

Inductive res (A : Type) := Ok (a : A) | Err (e : exn).
Arguments Ok {A} a.
Arguments Err {A} e.

Definition bind {A B} (m : res A) (k : A -> res B) : res B :=
  match m with Ok a => k a | Err e => Err e end.
Notation "'let*' x := m 'in' k" := (bind m (fun x => k))
  (at level 200, x pattern, m at level 100, k at level 200, right associativity).

Definition is_ok {A} (m : res A) : Prop := exists a, m = Ok a.

Fixpoint mapM {A B} (f : A -> res B) (l : list A) : res (list B) :=
  match l with
  | [] => Ok []
  | x :: l' => let* y := f x in let* ys := mapM f l' in Ok (y :: ys)
  end.

(** list indexing with the Python error *)
Definition nth_res {A} (l : list A) (i : nat) : res A :=
  match nth_error l i with Some x => Ok x | None => Err IndexError end.

Fixpoint set_nth {A} (l : list A) (i : nat) (v : A) : list A :=
  match l, i with
  | [], _ => []
  | _ :: l', O => v :: l'
  | x :: l', S i' => x :: set_nth l' i' v
  end.

Fixpoint map2 {A B C} (f : A -> B -> C) (l : list A) (m : list B) : list C :=
  match l, m with
  | a :: l', b :: m' => f a b :: map2 f l' m'
  | _, _ => []
  end.

(** Python's l[0:k] for an arbitrary integer k *)
Definition slice_to {A} (k : Z) (l : list A) : list A :=
  if (0 <=? k)%Z then firstn (Z.to_nat k) l
  else firstn (length l - Z.to_nat (- k)) l.

Fixpoint rsum (l : list R) : R :=
  match l with [] => 0 | x :: l' => x + rsum l' end.

(** sum of f 0 .. f (n-1) *)
Fixpoint sumn (n : nat) (f : nat -> R) : R :=
  match n with O => 0 | S k => sumn k f + f k end.

(** Python's max/min on a non-empty list x :: l *)
Definition rmax_list (x : R) (l : list R) : R := fold_left Rmax l x.
Definition rmin_list (x : R) (l : list R) : R := fold_left Rmin l x.

(** A two-dimensional numpy array: number of columns and list of rows. *)
Record mat := Mat { mcols : nat; mrows : list (list R) }.
Definition mat_wf (m : mat) : Prop := Forall (fun r => length r = mcols m) (mrows m).
Definition nrows (m : mat) : nat := length (mrows m).
Definition mget (m : mat) (i j : nat) : R := nth j (nth i (mrows m) []) 0.
Definition mset (m : mat) (i j : nat) (v : R) : mat :=
  Mat (mcols m) (set_nth (mrows m) i (set_nth (nth i (mrows m) []) j v)).
Definition mtab (n m : nat) (f : nat -> nat -> R) : mat :=
  Mat m (map (fun i => map (fun j => f i j) (seq 0 m)) (seq 0 n)).
