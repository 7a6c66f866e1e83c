(** Vocabulary for the properties of the ball-throwing task (C101, C102). *)
From Coq Require Import String.
From Verif Require Import Base DynModel TrajModel DmpModel CppModel CppTrajModel ThrowModel.
Open Scope R_scope.

(** two coordinates *)
Definition planar (h : hand) : Prop := let '(y, yd, ydd) := h in length y = 2%nat /\ length yd = 2%nat /\ length ydd = 2%nat.
Definition h_y (h : hand) : list R := fst (fst h).
Definition h_yd (h : hand) : list R := snd (fst h).
Definition h_ydd (h : hand) : list R := snd h.

(** the ball is released at time step r, the first one after 0.6 seconds *)
Definition released (dt : R) (r : nat) : Prop :=
  (1 <= r)%nat /\ 0.6 < INR r * dt /\ forall k, (1 <= k < r)%nat -> INR k * dt <= 0.6.
(** the ball j steps after it was released in p with velocity v: falls by 9.81 dt^2 (1 + 2 + ... + j) *)
Definition flight (dt : R) (p v : list R) (j : nat) : list R :=
  [nth 0 p 0 + INR j * dt * nth 0 v 0; nth 1 p 0 + INR j * dt * nth 1 v 0 - 9.81 * dt ^ 2 * (INR j * (INR j + 1) / 2)].
(** it has not been below the floor up to step j *)
Definition above (fl dt : R) (p v : list R) (j : nat) : Prop := forall q, (1 <= q <= j)%nat -> fl <= nth 1 (flight dt p v q) 0.
(** it hits the floor in step q *)
Definition lands (fl dt : R) (p v : list R) (q : nat) : Prop := (1 <= q)%nat /\ above fl dt p v (q - 1) /\ nth 1 (flight dt p v q) 0 < fl.
(** b is the ball at time step k, for the movement H of the hand: in the hand until it is released, then in
    the air, then on the floor, where it stays *)
Definition ball_at (fl dt : R) (r : nat) (H : nat -> hand) (k : nat) (b : list R) : Prop :=
  let p := h_y (H r) in let v := h_yd (H r) in
  ((k <= r)%nat -> b = h_y (H k)) /\
  (forall j, k = (r + j)%nat -> above fl dt p v j -> b = flight dt p v j) /\
  (forall j q, k = (r + j)%nat -> (q <= j)%nat -> lands fl dt p v q -> b = [nth 0 (flight dt p v q) 0; fl]).

(** the samples of a DMP integrated step by step *)
Section Moves.
Variable D : Type.
Variable start : D -> res (D * list R * list R).
Variable step : D -> R -> list R -> res (D * list R * list R).
Variable sample : D -> list R -> list R -> res hand.
Variables (dt : R) (d : D).
Fixpoint state_at (k : nat) : res (D * list R * list R) :=
  match k with
  | 0%nat => start d
  | S k' => let* p := state_at k' in step (fst (fst p)) dt (snd (fst p))
  end.
Definition hand_at (k : nat) : res hand := let* p := state_at k in sample (fst (fst p)) (snd (fst p)) (snd p).
(** the first n samples are H *)
Definition moves (n : nat) (H : nat -> hand) : Prop := forall k, (k < n)%nat -> hand_at k = Ok (H k).
End Moves.

(** numbers of a row of cost-relevant variables *)
Definition cols (a n : nat) (r : list R) : list R := firstn n (skipn a r).

(** sum of the squared accelerations of the first n samples *)
Definition square (a : list R) : R := rsum (map (fun v => v * v) a).
Definition effort (n : nat) (H : nat -> hand) : R := rsum (map (fun k => square (h_ydd (H k))) (seq 0 n)).

(** row k of the n rows of the Python simulation. The acceleration of the row where the ball is released is
    the one of the ball in the air, as soon as there is another row. *)
Definition py_row (fl dt : R) (r : nat) (H : nat -> hand) (n k : nat) (row : list R) : Prop :=
  length row = 9%nat /\ cols 0 1 row = [INR k * dt] /\ cols 1 2 row = h_y (H k) /\ cols 3 2 row = h_yd (H k) /\
  cols 5 2 row = (if (Nat.eqb k r && Nat.ltb (S r) n)%bool then [0; -9.81] else h_ydd (H k)) /\ ball_at fl dt r H k (cols 7 2 row).
(** row k of the C++ simulations: the time is the one at the end of the step, the floor is at -0.3 *)
Definition cpp_row (dt : R) (r : nat) (H : nat -> hand) (k : nat) (row : list R) : Prop :=
  length row = 14%nat /\ cols 0 1 row = [INR (S k) * dt] /\ cols 1 2 row = h_y (H k) /\ cols 3 2 row = h_yd (H k) /\ cols 5 2 row = h_ydd (H k) /\
  ball_at (-0.3) dt r H k (cols 7 2 row) /\ cols 13 1 row = [if Nat.ltb k r then 1 else 0].
