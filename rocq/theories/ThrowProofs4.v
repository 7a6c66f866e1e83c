(** Proofs about the ball-throwing simulations: agreement, costs of a throw, counterexamples (C101, C102). *)
From Coq Require Import String SpecFloat.
From Verif Require Import Base BaseLemmas DynModel DynSpec ParamModel FaModel TrajModel DmpModel DmpSpec SchedModel IntModel
  CppModel CppTrajModel CppSpec CppProofs2 CppProofs5 ThrowModel ThrowSpec ThrowProofs ThrowProofs2 ThrowProofs3.
Open Scope R_scope.

Lemma agree ex kinds m : good ex kinds 2 m -> exists rows rows',
  run_python_simulation (py_predict ex kinds) (-0.3) m = Ok rows /\ robot_execute_dmp ex (img kinds m) = Ok rows' /\
  (length rows' <= length rows <= S (length rows'))%nat /\
  forall k, (k < length rows')%nat -> let row := nth k rows [] in let row' := nth k rows' [] in
    cols 1 4 row' = cols 1 4 row /\ cols 7 2 row' = cols 7 2 row /\ (k <> 61%nat -> cols 5 2 row' = cols 5 2 row).
Proof.
  intros G. pose proof G as (W & Po & U & Ht & D). assert (Hdt : 0 < 0.01) by lra. destruct (both_move ex kinds m 0.01 G Hdt (ceil_nat (1.5 * m_tau m / 0.01))) as (HP & M1 & _ & _).
  destruct (both_move ex kinds m 0.01 G Hdt (floor_nat (1.5 * m_tau m / 0.01))) as (_ & _ & M2 & HS). set (H := dmp_hand ex kinds m 0.01) in *.
  destruct (ceil_floor (1.5 * m_tau m / 0.01)) as (N1 & N2); [apply Rdiv_lt_0_compat; lra|].
  destruct (py_simulation_ok dmp _ _ _ H m (m_tau m) HP (-0.3) N1 M1) as (rows & E & L & HR).
  destruct (execute_ok cdmp _ _ _ H (img kinds m) (m_tau m) HP M2 (fun k _ => HS k)) as (rows' & E' & L' & HR').
  exists rows, rows'. split; [exact E|]. split; [exact E'|]. rewrite L, L'. split; [exact N2|]. intros k Hk. cbv zeta.
  pose proof (HR k ltac:(lia)) as (A0 & A1 & A2 & A3 & A4 & A5). pose proof (HR' k Hk) as (B0 & B1 & B2 & B3 & B4 & B5 & B6). 
  assert (Z : forall r : list R, cols 1 4 r = (cols 1 2 r ++ cols 3 2 r)%list).
  { intros r. unfold cols. destruct r as [|? [|? [|? [|? [|? r]]]]]; reflexivity. }
  split; [rewrite !Z; congruence|]. split; [now apply (ball_unique (-0.3) 0.01 61 H k)|]. intros Nk. rewrite A4, B4. destruct (Nat.eqb_spec k 61); [contradiction|reflexivity].
Qed.

(** *** costs *)
Lemma rsum_rows {A} (f : list A -> R) g : forall n rows, length rows = n -> (forall k, (k < n)%nat -> f (nth k rows []) = g k) -> rsum (map f rows) = rsum (map g (seq 0 n)).
Proof.
  intros n rows L Hk. f_equal. apply nth_ext with (d := f []) (d' := g 0%nat); [now rewrite !map_length, seq_length|]. intros k Hlt. rewrite map_length, L in Hlt. rewrite !map_nth, seq_nth by trivial. now apply Hk.
Qed.
Lemma rsum_swap (g : nat -> R) r x n : (r < n)%nat -> rsum (map (fun k => if Nat.eqb k r then x else g k) (seq 0 n)) = rsum (map g (seq 0 n)) - g r + x.
Proof.
  intros Hr. replace n with (r + S (n - S r))%nat by lia. rewrite seq_app, !map_app, !rsum_app. cbn [plus seq map rsum]. rewrite Nat.eqb_refl.
  replace (map (fun k => if Nat.eqb k r then x else g k) (seq 0 r)) with (map g (seq 0 r)) by (apply map_ext_in; intros k Hk; apply in_seq in Hk; destruct (Nat.eqb_spec k r); [lia|reflexivity]).
  replace (map (fun k => if Nat.eqb k r then x else g k) (seq (S r) (n - S r))) with (map g (seq (S r) (n - S r))) by (apply map_ext_in; intros k Hk; apply in_seq in Hk; destruct (Nat.eqb_spec k r); [lia|reflexivity]).
  ring.
Qed.
Lemma nth_cols a n i (r : list R) : (i < n)%nat -> nth i (cols a n r) 0 = nth (a + i) r 0.
Proof.
  intros Hi. unfold cols. revert i n Hi r. induction a as [|a IH]; intros i n Hi r.
  - cbn [skipn plus]. revert i n Hi. induction r as [|x r IHr]; intros [|i] [|n] Hi; cbn; try lia; trivial. apply IHr. lia.
  - destruct r as [|x r]; [cbn; destruct n, i; reflexivity|]. cbn [skipn plus nth]. now apply IH.
Qed.
Section Costs.
Variables (t : throw_task) (H : nat -> hand) (n : nat) (rows : list (list R)).
Hypothesis Hn : (1 <= n)%nat.
Hypothesis L : length rows = n.
Lemma last_row : last rows [] = nth (n - 1) rows [].
Proof. rewrite <- L. clear. induction rows as [|a [|b l] IH]; [reflexivity..|]. cbn [last]. cbn [last] in IH. rewrite IH. cbn [length]. now replace (S (S (length l)) - 1)%nat with (S (S (length l) - 1)) by lia. Qed.
Lemma rows_nonempty : rows <> []. Proof. intros ->. cbn in L. lia. Qed.
Lemma py_costs fl dt r : (forall k, (k < n)%nat -> py_row fl dt r H n k (nth k rows [])) -> exists d a, throw_cost t rows = Ok [d + a; d; a] /\
  (forall b, ball_at fl dt r H (n - 1) b -> d = Rmax 0 (Rabs (nth 0 b 0 - x_goal t) - x_margin t)) /\
  a = Rmax 0 (acc_weight t) * (if Nat.ltb (S r) n then effort n H - square (h_ydd (H r)) + 9.81 * 9.81 else effort n H) / INR n.
Proof.
  intros HR. pose proof (HR (n - 1)%nat ltac:(lia)) as (A0 & _ & _ & _ & _ & A5). destruct (throw_cost_ok t rows _ rows_nonempty last_row) as (d & a & E & Ed & Ea & _); [lia|].
  exists d, a. split; [exact E|]. split.
  - intros b Hb. rewrite Ed. rewrite (ball_unique _ _ _ _ _ _ _ Hb A5). rewrite nth_cols by lia. reflexivity.
  - rewrite Ea, L. do 2 f_equal. rewrite (rsum_rows _ (fun k => square (if (Nat.eqb k r && Nat.ltb (S r) n)%bool then [0; -9.81] else h_ydd (H k))) n); [|exact L|].
    + destruct (Nat.ltb_spec (S r) n) as [Lt|Ge].
      * unfold effort. rewrite <- (rsum_swap (fun k => square (h_ydd (H k))) r _ n) by lia. f_equal. apply map_ext. intros k. rewrite andb_true_r. destruct (Nat.eqb k r); [|reflexivity]. unfold square. cbn [map rsum]. lra.
      * unfold effort. f_equal. apply map_ext. intros k. now rewrite andb_false_r.
    + intros k Hk. destruct (HR k Hk) as (_ & _ & _ & _ & -> & _). reflexivity.
Qed.
Lemma cpp_costs dt r : (forall k, (k < n)%nat -> cpp_row dt r H k (nth k rows [])) -> exists d a, throw_cost t rows = Ok [d + a; d; a] /\
  (forall b, ball_at (-0.3) dt r H (n - 1) b -> d = Rmax 0 (Rabs (nth 0 b 0 - x_goal t) - x_margin t)) /\
  a = Rmax 0 (acc_weight t) * effort n H / INR n.
Proof.
  intros HR. pose proof (HR (n - 1)%nat ltac:(lia)) as (A0 & _ & _ & _ & _ & A5 & _). destruct (throw_cost_ok t rows _ rows_nonempty last_row) as (d & a & E & Ed & Ea & _); [lia|].
  exists d, a. split; [exact E|]. split.
  - intros b Hb. rewrite Ed. rewrite (ball_unique _ _ _ _ _ _ _ Hb A5). rewrite nth_cols by lia. reflexivity.
  - rewrite Ea, L. do 2 f_equal. apply rsum_rows; [exact L|]. intros k Hk. destruct (HR k Hk) as (_ & _ & _ & _ & -> & _). reflexivity.
Qed.
End Costs.
(** landed before the last step *)
Lemma landed_at fl dt r H n q : (forall k, planar (H k)) -> lands fl dt (h_y (H r)) (h_yd (H r)) q -> (r + q < n)%nat -> ball_at fl dt r H (n - 1) [nth 0 (h_y (H r)) 0 + INR q * dt * nth 0 (h_yd (H r)) 0; fl].
Proof.
  intros HP La Hq. pose proof (ok_floor fl dt r H (n - 1 - r) q ltac:(lia) La) as X. replace (r + (n - 1 - r))%nat with (n - 1)%nat in X by lia. exact X.
Qed.

(** *** the float clocks *)
Lemma py_release : forallb (fun k => negb (SFltb sf_release (py_time k))) (seq 0 61) && SFltb sf_release (py_time 61) = true.
Proof. vm_compute. reflexivity. Qed.
Lemma cpp_release : forallb (fun k => negb (SFltb sf_release (cpp_time k))) (seq 0 60) && SFltb sf_release (cpp_time 60) = true.
Proof. vm_compute. reflexivity. Qed.

(** *** a hand at rest *)
Definition still_start (_ : unit) : res (unit * list R * list R) := Ok (tt, [], []).
Definition still_step (_ : unit) (_ : R) (_ : list R) : res (unit * list R * list R) := Ok (tt, [], []).
Definition still_sample (_ : unit) (_ _ : list R) : res hand := Ok rest.
Lemma still_state dt k : state_at unit still_start still_step dt tt k = Ok (tt, [], []).
Proof. induction k as [|k IH]; [reflexivity|]. cbn [state_at]. rewrite IH. reflexivity. Qed.
Lemma still_moves dt n : moves unit still_start still_step still_sample dt tt n (fun _ => rest).
Proof. intros k _. unfold hand_at. rewrite still_state. reflexivity. Qed.
Lemma rest_planar : planar rest. Proof. now repeat split. Qed.
Lemma int_part_is x z : IZR z <= x < IZR z + 1 -> Int_part x = z.
Proof.
  intros (A & B). destruct (base_Int_part x) as [C D].
  assert ((Int_part x < z + 1)%Z) by (apply lt_IZR; rewrite plus_IZR; lra). assert ((z < Int_part x + 1)%Z) by (apply lt_IZR; rewrite plus_IZR; lra). lia.
Qed.
Lemma ceil_150 : ceil_nat (1.5 * 1 / 0.01) = 150%nat.
Proof. unfold ceil_nat. replace (Int_part (- (1.5 * 1 / 0.01))) with (-150)%Z; [reflexivity|]. symmetry. apply int_part_is. lra. Qed.
Lemma floor_150 : floor_nat (1.5 * 1 / 0.01) = 150%nat.
Proof. unfold floor_nat. replace (Int_part (1.5 * 1 / 0.01)) with 150%Z; [reflexivity|]. symmetry. apply int_part_is. lra. Qed.
Lemma rest_lands : lands (-0.3) 0.01 (h_y rest) (h_yd rest) 25 /\ lands (-1) 0.01 (h_y rest) (h_yd rest) 45.
Proof.
  assert (I : forall j k, (j <= k)%nat -> INR j <= INR k) by (intros; now apply le_INR).
  assert (E24 : INR 24 = 24) by (rewrite INR_IZR_INZ; reflexivity). assert (E44 : INR 44 = 44) by (rewrite INR_IZR_INZ; reflexivity).
  assert (E25 : INR 25 = 25) by (rewrite INR_IZR_INZ; reflexivity). assert (E45 : INR 45 = 45) by (rewrite INR_IZR_INZ; reflexivity).
  split; (split; [lia|]; split; [intros q Hq; pose proof (I q _ (proj2 Hq)) as X; cbn [Nat.sub] in X; pose proof (pos_INR q); unfold flight; cbn [nth h_y h_yd rest fst snd]|unfold flight; cbn [nth h_y h_yd rest fst snd]]).
  - rewrite E24 in X. nra.
  - rewrite E25. lra.
  - rewrite E44 in X. nra.
  - rewrite E45. lra.
Qed.
Lemma floors_differ : exists rows rows', py_simulation unit still_start still_step still_sample 1 (-1) tt = Ok rows /\ c_execute_dmp unit still_start still_step still_sample 1 tt = Ok rows' /\
  length rows = 150%nat /\ length rows' = 150%nat /\ cols 7 2 (last rows []) = [0; -1] /\ cols 7 2 (last rows' []) = [0; -0.3].
Proof.
  pose proof (py_simulation_ok unit still_start still_step still_sample (fun _ => rest) tt 1 (fun _ => rest_planar) (-1)) as A. pose proof (execute_ok unit still_start still_step still_sample (fun _ => rest) tt 1 (fun _ => rest_planar)) as B.
  cbv zeta in A, B. rewrite ceil_150 in A. rewrite floor_150 in B. destruct A as (rows & E & L & HR); [lia|apply still_moves|]. destruct B as (rows' & E' & L' & HR'); [apply still_moves|intros k _; rewrite still_state; eauto|].
  exists rows, rows'. do 4 (split; [trivial|]). rewrite (last_row 150 rows L), (last_row 150 rows' L').
  destruct (HR 149%nat ltac:(lia)) as (_ & _ & _ & _ & _ & Y). destruct (HR' 149%nat ltac:(lia)) as (_ & _ & _ & _ & _ & Y' & _). destruct rest_lands as (R1 & R2).
  change (150 - 1)%nat with 149%nat. split.
  - destruct Y as (_ & _ & Y). rewrite (Y 88%nat 45%nat) by (trivial; lia). unfold flight. cbn [nth h_y h_yd rest fst snd]. apply f_equal2; [ring|reflexivity].
  - destruct Y' as (_ & _ & Y'). rewrite (Y' 88%nat 25%nat) by (trivial; lia). unfold flight. cbn [nth h_y h_yd rest fst snd]. apply f_equal2; [ring|reflexivity].
Qed.
