(** The properties of polynomial trajectories: C61-C63. See TrajSpec.v for the vocabulary. *)
From Coquelicot Require Import Coquelicot.
From Verif Require Import Base BaseLemmas TrajModel TrajSpec TrajProofs TrajProofs2 TrajProofs4 TrajProofs6.
Open Scope R_scope.

(** ** C61. Full statement: starts at y_from, yd_from, ydd_from and ends at y_to, yd_to, ydd_to. This is
    false: velocities and accelerations are divided by the duration and its square, and the end
    position and velocity are off by multiples of ydd_from (refuted below). The theorem gives the
    values at both ends for all boundary conditions, and proves that yds and ydds are the derivatives
    of ys. *)
Theorem C61_polynomial_partial : forall ts y v a y' v' a',
  (forall l, In l (v :: a :: y' :: v' :: a' :: nil) -> length l = length y) -> ts <> nil -> last ts 0 <> nth 0 ts 0 ->
  exists t, from_polynomial ts y v a y' v' a' = Ok t /\ consistent t /\ tj_ts t = ts /\ tj_dim t = length y /\ tj_dt t = dt_mean ts /\ tj_misc t = None /\
  let t0 := nth 0 ts 0 in let te := last ts 0 in let D := te - t0 in
  forall i, (i < length y)%nat -> exists Y Yd Ydd, samples_of t i Y Yd Ydd /\
    (forall s, is_derive Y s (Yd s) /\ is_derive Yd s (Ydd s)) /\
    Y t0 = nth i y 0 /\ Yd t0 = nth i v 0 / D /\ Ydd t0 = nth i a 0 / D ^ 2 /\
    Y te = nth i y' 0 - nth i a 0 / 2 /\ Yd te = (nth i v' 0 - nth i a 0) / D /\ Ydd te = nth i a' 0 / D ^ 2.
Proof. exact from_polynomial_ok. Qed.
Print Assumptions C61_polynomial_partial.
(** for a duration of 1 and no initial acceleration, all boundary conditions are met *)
Theorem C61_unit_duration_partial : forall ts y v a y' v' a',
  (forall l, In l (v :: a :: y' :: v' :: a' :: nil) -> length l = length y) -> ts <> nil -> last ts 0 - nth 0 ts 0 = 1 -> (forall i, nth i a 0 = 0) ->
  exists t, from_polynomial ts y v a y' v' a' = Ok t /\ tj_ts t = ts /\
  forall i, (i < length y)%nat -> 
    let n := length ts in
    at2 (tj_ys t) 0 i = nth i y 0 /\ at2 (tj_yds t) 0 i = nth i v 0 /\ at2 (tj_ydds t) 0 i = 0 /\
    at2 (tj_ys t) (n - 1) i = nth i y' 0 /\ at2 (tj_yds t) (n - 1) i = nth i v' 0 /\ at2 (tj_ydds t) (n - 1) i = nth i a' 0.
Proof.
  intros ts y v a y' v' a' Hl Hne HD Ha. destruct (from_polynomial_ok ts y v a y' v' a' Hl Hne ltac:(lra)) as (t & E & _ & T & _ & _ & _ & P).
  exists t. split; [exact E|]. split; [exact T|]. intros i Hi. cbv zeta in *. destruct (P i Hi) as (Y & Yd & Ydd & S & _ & B1 & B2 & B3 & B4 & B5 & B6).
  unfold samples_of in S. rewrite T in S. assert (Hn : (0 < length ts)%nat) by (destruct ts; [contradiction|cbn; lia]).
  destruct (S 0%nat Hn) as (-> & -> & ->). destruct (S (length ts - 1)%nat ltac:(lia)) as (-> & -> & ->). rewrite <- last_nth'.
  rewrite B1, B2, B3, B4, B5, B6, HD, Ha. repeat split; field.
Qed.
Print Assumptions C61_unit_duration_partial.
(** movements from rest to rest meet all boundary conditions, for every duration *)
Theorem C61_rest_to_rest_partial : forall ts y z y', length z = length y -> length y' = length y -> (forall i, nth i z 0 = 0) -> ts <> nil -> last ts 0 <> nth 0 ts 0 ->
  exists t, from_polynomial ts y z z y' z z = Ok t /\ tj_ts t = ts /\
  forall i, (i < length y)%nat -> 
    let n := length ts in
    at2 (tj_ys t) 0 i = nth i y 0 /\ at2 (tj_yds t) 0 i = 0 /\ at2 (tj_ydds t) 0 i = 0 /\
    at2 (tj_ys t) (n - 1) i = nth i y' 0 /\ at2 (tj_yds t) (n - 1) i = 0 /\ at2 (tj_ydds t) (n - 1) i = 0.
Proof.
  intros ts y z y' Lz Ly' Hz Hne HD. destruct (from_polynomial_ok ts y z z y' z z) as (t & E & _ & T & _ & _ & _ & P); trivial.
  { intros l H. cbn in H. intuition (subst; trivial). }
  exists t. split; [exact E|]. split; [exact T|]. intros i Hi. cbv zeta in *. destruct (P i Hi) as (Y & Yd & Ydd & S & _ & B1 & B2 & B3 & B4 & B5 & B6).
  unfold samples_of in S. rewrite T in S. assert (Hn : (0 < length ts)%nat) by (destruct ts; [contradiction|cbn; lia]).
  destruct (S 0%nat Hn) as (-> & -> & ->). destruct (S (length ts - 1)%nat ltac:(lia)) as (-> & -> & ->). rewrite <- last_nth'.
  rewrite B1, B2, B3, B4, B5, B6, Hz. assert (last ts 0 - nth 0 ts 0 <> 0) by lra. repeat split; field; trivial.
Qed.
Print Assumptions C61_rest_to_rest_partial.
Definition one (x : R) : list R := x :: nil.
Lemma one_len l x : In l (one 0 :: one x :: one 1 :: one 0 :: one 0 :: nil) -> length l = 1%nat.
Proof. cbn. intuition (subst; reflexivity). Qed.
(** with an initial acceleration of 2, a movement from 0 to 1 ends at 0 *)
Theorem C61_end_refuted : exists t, from_polynomial (0 :: 1 :: nil) (one 0) (one 0) (one 2) (one 1) (one 0) (one 0) = Ok t /\ at2 (tj_ys t) 1 0 = 0.
Proof.
  destruct (from_polynomial_ok (0 :: 1 :: nil) (one 0) (one 0) (one 2) (one 1) (one 0) (one 0)) as (t & E & _ & T & _ & _ & _ & P); [|discriminate|cbn; lra|].
  { intros l H. change (length (one 0)) with 1%nat. now apply (one_len l 2). }
  exists t. split; [exact E|]. cbv zeta in P. destruct (P 0%nat ltac:(cbn; lia)) as (Y & Yd & Ydd & S & _ & _ & _ & _ & B4 & _). unfold samples_of in S. rewrite T in S.
  destruct (S 1%nat ltac:(cbn; lia)) as (-> & _). cbn in *. lra.
Qed.
Print Assumptions C61_end_refuted.
(** in two seconds, a requested initial velocity of 1 becomes 1/2 *)
Theorem C61_velocity_refuted : exists t, from_polynomial (0 :: 2 :: nil) (one 0) (one 1) (one 0) (one 1) (one 0) (one 0) = Ok t /\ at2 (tj_yds t) 0 0 = 1 / 2.
Proof.
  destruct (from_polynomial_ok (0 :: 2 :: nil) (one 0) (one 1) (one 0) (one 1) (one 0) (one 0)) as (t & E & _ & T & _ & _ & _ & P); [|discriminate|cbn; lra|].
  { intros l H. change (length (one 0)) with 1%nat. cbn in H. intuition (subst; reflexivity). }
  exists t. split; [exact E|]. cbv zeta in P. destruct (P 0%nat ltac:(cbn; lia)) as (Y & Yd & Ydd & S & _ & _ & B2 & _). unfold samples_of in S. rewrite T in S.
  destruct (S 0%nat ltac:(cbn; lia)) as (_ & -> & _). cbn in *. lra.
Qed.
Print Assumptions C61_velocity_refuted.
Example C61_case : (forall l, In l (one 0 :: one 2 :: one 1 :: one 0 :: one 0 :: nil) -> length l = length (one 0)) /\ last (0 :: 0.5 :: 1 :: nil) 0 - nth 0 (0 :: 0.5 :: 1 :: nil) 0 = 1.
Proof. split; [intros l H; now apply (one_len l 2)|cbn; lra]. Qed.

(** ** C62 *)
Theorem C62_min_jerk : forall ts y y', length y' = length y -> increasing ts -> (2 <= length ts)%nat -> nth 0 ts 0 = 0 ->
  exists t, from_min_jerk ts y y' = Ok t /\ consistent t /\ tj_ts t = ts /\ tj_dim t = length y /\
  forall i, (i < length y)%nat ->
    let n := length ts in let a := nth i y 0 in let b := nth i y' 0 in
    at2 (tj_ys t) 0 i = a /\ at2 (tj_yds t) 0 i = 0 /\ at2 (tj_ydds t) 0 i = 0 /\
    at2 (tj_ys t) (n - 1) i = b /\ at2 (tj_yds t) (n - 1) i = 0 /\ at2 (tj_ydds t) (n - 1) i = 0 /\
    (forall k, (k < n)%nat -> Rmin a b <= at2 (tj_ys t) k i <= Rmax a b) /\
    (forall k l, (k <= l)%nat -> (l < n)%nat -> (a <= b -> at2 (tj_ys t) k i <= at2 (tj_ys t) l i) /\ (b <= a -> at2 (tj_ys t) l i <= at2 (tj_ys t) k i)) /\
    exists Y Yd Ydd, samples_of t i Y Yd Ydd /\ forall s, is_derive Y s (Yd s) /\ is_derive Yd s (Ydd s).
Proof.
  intros ts y y' Hl Hi Hn H0. assert (HD : 0 < last ts 0) by (pose proof (increasing_ends ts Hi Hn); lra).
  destruct (from_min_jerk_ok ts y y' Hl ltac:(destruct ts; [cbn in Hn; lia|discriminate]) ltac:(lra)) as (t & E & C & T & D & _ & P).
  exists t. split; [exact E|]. split; [exact C|]. split; [exact T|]. split; [exact D|]. intros i Hi'. destruct (P i Hi') as (Y & Yd & Ydd & S & Der & F & B1 & B2 & B3 & B4 & B5 & B6).
  cbv zeta. pose proof S as S'. unfold samples_of in S. rewrite T in S.
  assert (Rg : forall k, (k < length ts)%nat -> 0 <= nth k ts 0 / last ts 0 <= 1).
  { intros k Hk. assert (0 <= nth k ts 0 <= last ts 0).
    { split; [destruct k as [|k]; [lra|]; pose proof (Hi 0%nat (Datatypes.S k) ltac:(lia) Hk); lra|]. rewrite last_nth'. destruct (Nat.eq_dec k (length ts - 1)) as [->|]; [lra|]. left; apply Hi; lia. }
    split; [apply Rdiv_le_0_compat; lra|]. apply (Rmult_le_reg_r (last ts 0)); [lra|]. field_simplify; lra. }
  split; [rewrite (proj1 (S 0%nat ltac:(lia))), H0; exact B1|]. split; [rewrite (proj1 (proj2 (S 0%nat ltac:(lia)))), H0; exact B2|]. split; [rewrite (proj2 (proj2 (S 0%nat ltac:(lia)))), H0; exact B3|].
  split; [rewrite (proj1 (S (length ts - 1)%nat ltac:(lia))), <- last_nth'; exact B4|]. split; [rewrite (proj1 (proj2 (S (length ts - 1)%nat ltac:(lia)))), <- last_nth'; exact B5|].
  split; [rewrite (proj2 (proj2 (S (length ts - 1)%nat ltac:(lia)))), <- last_nth'; exact B6|].
  split.
  { intros k Hk. rewrite (proj1 (S k Hk)), F. pose proof (mj_range _ (Rg k Hk)) as M. set (m := mj (nth k ts 0 / last ts 0)) in *.
    unfold Rmin, Rmax. destruct (Rle_dec (nth i y 0) (nth i y' 0)) as [Hab|Hab]; [|apply Rnot_le_lt in Hab]; split; nra. }
  split; [|exists Y, Yd, Ydd; split; [exact S'|exact Der]].
  intros k l Hkl Hln. rewrite (proj1 (S k ltac:(lia))), (proj1 (S l Hln)), !F.
  assert (M : mj (nth k ts 0 / last ts 0) <= mj (nth l ts 0 / last ts 0)).
  { apply mj_mono; [apply Rg; lia|]. apply Rmult_le_compat_r; [left; now apply Rinv_0_lt_compat|]. destruct (Nat.eq_dec k l) as [->|]; [lra|]. left; apply Hi; lia. }
  split; intros; nra.
Qed.
Print Assumptions C62_min_jerk.
Example C62_case : increasing (0 :: 1 :: 3 :: nil) /\ (2 <= length (0 :: 1 :: 3 :: nil))%nat /\ length (1 :: 2 :: nil) = length (4 :: 0 :: nil).
Proof. split; [|cbn; split; [lia|reflexivity]]. intros [|[|[|i]]] [|[|[|j]]] Hij Hj; cbn in *; try lia; lra. Qed.

(** ** C63. Full statement: ends at y_to, and passes through the via-point with the given velocity.
    False if the via-point has an acceleration (refuted below), and velocities are divided by the
    durations of the two parts; the theorem gives the values at the start, via-point and end. *)
Theorem C63_viapoint_partial : forall ts y via vt y' k, increasing ts -> (2 <= k)%nat -> (k + 2 <= length ts)%nat -> nth (k - 1) ts 0 < vt -> vt <= nth k ts 0 ->
  length via = (3 * length y)%nat -> length y' = length y -> exists t,
  from_viapoint_polynomial ts y via vt y' = Ok t /\ consistent t /\ tj_dim t = length y /\ length (tj_ts t) = length ts /\ increasing (tj_ts t) /\
  (forall d, equidistant d ts -> tj_ts t = ts) /\ firstn k (tj_ts t) = firstn k ts /\
  let n := length ts in let d := length y in
  forall i, (i < d)%nat ->
    at2 (tj_ys t) 0 i = nth i y 0 /\ at2 (tj_yds t) 0 i = 0 /\ at2 (tj_ydds t) 0 i = 0 /\
    at2 (tj_ys t) (k - 1) i = nth i via 0 /\ at2 (tj_ys t) k i = nth i via 0 /\
    at2 (tj_yds t) (k - 1) i = nth (d + i) via 0 / (nth (k - 1) ts 0 - nth 0 ts 0) /\
    at2 (tj_yds t) k i = nth (d + i) via 0 / (nth (n - 1) ts 0 - nth k ts 0) /\
    at2 (tj_ys t) (n - 1) i = nth i y' 0 - nth (2 * d + i) via 0 / 2 /\
    at2 (tj_yds t) (n - 1) i = - nth (2 * d + i) via 0 / (nth (n - 1) ts 0 - nth k ts 0) /\
    at2 (tj_ydds t) (n - 1) i = 0.
Proof. exact viapoint_ok. Qed.
Print Assumptions C63_viapoint_partial.
Definition four : list R := 0 :: 1 :: 2 :: 3 :: nil.
Lemma four_inc : increasing four.
Proof. intros [|[|[|[|i]]]] [|[|[|[|j]]]] Hij Hj; cbn in *; try lia; lra. Qed.
(** with an acceleration of 2 at the via-point, the movement ends at 0 instead of 1 *)
Theorem C63_goal_refuted : exists t, from_viapoint_polynomial four (one 0) (0 :: 0 :: 2 :: nil) 1.5 (one 1) = Ok t /\ at2 (tj_ys t) 3 0 = 0.
Proof.
  destruct (viapoint_ok four (one 0) (0 :: 0 :: 2 :: nil) 1.5 (one 1) 2 four_inc) as (t & E & _ & _ & _ & _ & _ & _ & P); try (cbn; lia); try (cbn; lra).
  exists t. split; [exact E|]. cbv zeta in P. destruct (P 0%nat ltac:(cbn; lia)) as (_ & _ & _ & _ & _ & _ & _ & P8 & _). cbn in P8. cbn. lra.
Qed.
Print Assumptions C63_goal_refuted.
Example C63_case : increasing four /\ (2 + 2 <= length four)%nat /\ nth (2 - 1) four 0 < 1.5 /\ 1.5 <= nth 2 four 0.
Proof. split; [exact four_inc|]. cbn. split; [lia|]. lra. Qed.
