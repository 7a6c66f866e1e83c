(** Vocabulary for the properties of trajectories (C55-C63, C84, C85). *)
From Coq Require Import String.
From Verif Require Import Base TrajModel.
Open Scope R_scope.

(** a matrix with n rows of d numbers *)
Definition samples (n d : nat) (m : mat) : Prop :=
  mcols m = d /\ length (mrows m) = n /\ forall r, In r (mrows m) -> length r = d.
Definition array (a : nd) : Prop := match a with V1 _ => True | V2 m => exists n d, samples n d m end.
Definition shape (a : nd) : nat * nat := match a with V1 l => (length l, 1%nat) | V2 m => (length (mrows m), mcols m) end.

(** one row of positions, velocities, accelerations and (if any) misc for each time *)
Definition consistent (t : traj) : Prop :=
  let n := length (tj_ts t) in
  samples n (tj_dim t) (tj_ys t) /\ samples n (tj_dim t) (tj_yds t) /\ samples n (tj_dim t) (tj_ydds t) /\
  forall a, tj_misc t = Some a -> array a /\ fst (shape a) = n.

Definition increasing (l : list R) : Prop := forall i j, (i < j)%nat -> (j < length l)%nat -> nth i l 0 < nth j l 0.
(** the times t0, t0 + d, t0 + 2d, ... *)
Definition equidistant (d : R) (l : list R) : Prop := forall i, (S i < length l)%nat -> nth (S i) l 0 - nth i l 0 = d.
(** the time step the trajectory keeps in dt_mean is the mean time step *)
Definition fresh_dt (t : traj) : Prop :=
  tj_dt t = match length (tj_ts t) with
            | O | 1%nat => None
            | S n => Some ((last (tj_ts t) 0 - nth 0 (tj_ts t) 0) / INR n)
            end.

(** the columns of the misc variables; a vector is a column *)
Definition misc_cols (t : traj) : nat := match tj_misc t with None => 0%nat | Some a => snd (shape a) end.
Definition misc_at (t : traj) (k j : nat) : R :=
  match tj_misc t with None => 0 | Some (V1 l) => nth k l 0 | Some (V2 m) => nth j (nth k (mrows m) []) 0 end.
(** entries: time step k, dimension i *)
Definition at2 (m : mat) (k i : nat) : R := nth i (nth k (mrows m) []) 0.

(** trajectories that can be concatenated without error *)
Definition same_misc (a b : option nd) : Prop :=
  match a, b with
  | Some (V1 _), Some (V1 _) => True
  | Some (V2 x), Some (V2 y) => mcols x = mcols y
  | None, _ | _, None => True
  | _, _ => False
  end.
Definition joinable (t u : traj) : Prop := tj_dim t = tj_dim u /\ same_misc (tj_misc t) (tj_misc u).

(** arguments of calls that are themselves in order *)
Definition good_call (c : tcall) : Prop :=
  match c with
  | TMisc a => array a
  | TAppend u | TPrepend u => consistent u
  | TFilter f => forall dt m m' n d, samples n d m -> f dt m = Ok m' -> samples n d m'
  | _ => True
  end.
(** calls that fit the trajectory *)
Definition fits (t : traj) (c : tcall) : Prop :=
  match c with
  | TCrop _ _ | TCropT _ _ => forall l, tj_misc t <> Some (V1 l)
  | TAppend u | TPrepend u => joinable t u /\ tj_ts u <> []
  | TPadFront n | TPadEnd n => (1 <= n)%nat
  | TFilter _ => (2 <= length (tj_ts t))%nat
  | _ => True
  end.

(** rows a..b-1 of each part *)
Definition keeps_rows (t t' : traj) (a b : nat) : Prop :=
  let cut {A} (l : list A) := firstn (b - a) (skipn a l) in
  tj_ts t' = cut (tj_ts t) /\ mrows (tj_ys t') = cut (mrows (tj_ys t)) /\
  mrows (tj_yds t') = cut (mrows (tj_yds t)) /\ mrows (tj_ydds t') = cut (mrows (tj_ydds t)) /\
  tj_misc t' = match tj_misc t with Some (V2 m) => Some (V2 (Mat (mcols m) (cut (mrows m)))) | o => o end /\
  tj_dim t' = tj_dim t.
(** the data of a followed by the data of b *)
Definition joined (a b t : traj) : Prop :=
  mrows (tj_ys t) = (mrows (tj_ys a) ++ mrows (tj_ys b))%list /\
  mrows (tj_yds t) = (mrows (tj_yds a) ++ mrows (tj_yds b))%list /\
  mrows (tj_ydds t) = (mrows (tj_ydds a) ++ mrows (tj_ydds b))%list /\
  tj_misc t = match tj_misc a, tj_misc b with
              | Some (V1 x), Some (V1 y) => Some (V1 (x ++ y))
              | Some (V2 x), Some (V2 y) => Some (V2 (Mat (mcols x) (mrows x ++ mrows y)))
              | _, _ => None
              end.

(** Y, Yd, Ydd are the position, velocity and acceleration of dimension i over time, of which the
    trajectory contains the samples *)
Definition samples_of (t : traj) (i : nat) (Y Yd Ydd : R -> R) : Prop :=
  forall k, (k < length (tj_ts t))%nat ->
    at2 (tj_ys t) k i = Y (nth k (tj_ts t) 0) /\ at2 (tj_yds t) k i = Yd (nth k (tj_ts t) 0) /\
    at2 (tj_ydds t) k i = Ydd (nth k (tj_ts t) 0).
