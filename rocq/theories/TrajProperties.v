(** The properties of trajectories: C55-C60, C84, C85. See TrajSpec.v for the vocabulary. *)
From Coq Require Import String SpecFloat.
From Verif Require Import Base BaseLemmas TrajModel TrajSpec TrajProofs TrajProofs2 TrajProofs3 TrajProofs4 TrajProofs5 TrajProofs7 TrajExamples.
Open Scope R_scope.

(** ** C55. Full statement: constructors reject inconsistent shapes; every history of operations keeps
    the numbers of rows in agreement; a failing operation leaves the trajectory as it was. The last
    part is false (refuted below) and holds only for calls that fit the trajectory. *)
Theorem C55_constructor : forall ts ys yds ydds misc,
  let fit := fst (shape ys) = length ts /\ shape yds = shape ys /\ shape ydds = shape ys /\
             (forall a, misc = Some a -> fst (shape a) = length ts) in
  (fit -> exists t, new_traj ts ys (Some yds) (Some ydds) misc = Ok t) /\
  (~ fit -> new_traj ts ys (Some yds) (Some ydds) misc = Err ValueError).
Proof. exact new_traj_shapes. Qed.
Print Assumptions C55_constructor.
Theorem C55_constructed : forall ts ys yds ydds misc t, array ys -> (forall a, yds = Some a -> array a) ->
  (forall a, ydds = Some a -> array a) -> (forall a, misc = Some a -> array a) ->
  new_traj ts ys yds ydds misc = Ok t ->
  consistent t /\ tj_ts t = ts /\ tj_dim t = snd (shape ys) /\ column (length ts) ys = Ok (tj_ys t) /\
  tj_misc t = misc /\ tj_dt t = dt_mean ts.
Proof. exact new_traj_consistent. Qed.
Print Assumptions C55_constructed.
Theorem C55_histories : forall cs t t', consistent t -> Forall good_call cs -> t_run t cs = (t', Ok tt) ->
  consistent t' /\ tj_dim t' = tj_dim t.
Proof. exact run_consistent. Qed.
Print Assumptions C55_histories.
Theorem C55_failures_partial : forall t c t' e, consistent t -> good_call c -> fits t c -> e <> NonFinite ->
  t_do t c = (t', Err e) -> t' = t.
Proof. exact do_fail. Qed.
Print Assumptions C55_failures_partial.
Theorem C55_failing_append_refuted : exists t u t', consistent t /\ consistent u /\ append t u = (t', Err ValueError) /\ ~ consistent t'.
Proof. destruct append_breaks as (t' & E & N). exists ex_t, ex_w, t'. auto using ex_t_ok, ex_w_ok. Qed.
Print Assumptions C55_failing_append_refuted.
Theorem C55_failing_crop_refuted : exists t t', consistent t /\ crop t 0 2 = (t', Err IndexError) /\ ~ consistent t'.
Proof. destruct crop_breaks as (t' & E & N). exists ex_v, t'. auto using ex_v_ok. Qed.
Print Assumptions C55_failing_crop_refuted.
Example C55_case : exists t', t_run ex_t [TAppend ex_u; TCrop 1 4; TPadEnd 2; TZero] = (t', Ok tt) /\ consistent t' /\
  Forall good_call [TAppend ex_u; TCrop 1 4; TPadEnd 2; TZero] /\ length (tj_ts t') = 5%nat.
Proof.
  assert (G : Forall good_call [TAppend ex_u; TCrop 1 4; TPadEnd 2; TZero]) by (constructor; [exact ex_u_ok|]; do 3 (constructor; [exact I|]); constructor).
  assert (E : exists t', t_run ex_t [TAppend ex_u; TCrop 1 4; TPadEnd 2; TZero] = (t', Ok tt) /\ length (tj_ts t') = 5%nat).
  { cbv -[Req_EM_T INR Rplus Rminus Rmult Rdiv Ropp IZR not]. destruct (Req_EM_T 1 0); [lra|]. eexists. split; reflexivity. }
  destruct E as (t' & E & L). exists t'. split; [exact E|]. split; [exact (proj1 (C55_histories _ _ _ ex_t_ok G E))|]. auto.
Qed.
Example C55_failure_case : fits ex_t (TCrop 2 1) /\ t_do ex_t (TCrop 2 1) = (ex_t, Err ValueError).
Proof. split; [exact ex_t_misc|reflexivity]. Qed.

(** ** C56. Full statement: as below, with data frames for all trajectories; they fail for misc given
    as a vector (refuted below) and for empty trajectories. *)
Theorem C56_round_trip : forall t, consistent t -> exists M t',
  as_matrix t = Ok M /\ from_matrix M (misc_cols t) = Ok t' /\ consistent t' /\
  tj_ts t' = tj_ts t /\ tj_dim t' = tj_dim t /\ tj_ys t' = tj_ys t /\ tj_yds t' = tj_yds t /\ tj_ydds t' = tj_ydds t /\
  tj_dt t' = dt_mean (tj_ts t) /\ misc_cols t' = misc_cols t /\
  (forall k j, (k < length (tj_ts t))%nat -> (j < misc_cols t)%nat -> misc_at t' k j = misc_at t k j) /\
  (forall m, tj_misc t = Some (V2 m) -> tj_misc t' = tj_misc t).
Proof. exact matrix_roundtrip. Qed.
Print Assumptions C56_round_trip.
Theorem C56_entries : forall t M, consistent t -> as_matrix t = Ok M ->
  samples (length (tj_ts t)) (1 + 3 * tj_dim t + misc_cols t) M /\
  forall k, (k < length (tj_ts t))%nat ->
    at2 M k 0 = nth k (tj_ts t) 0 /\
    (forall i, (i < tj_dim t)%nat -> at2 M k (1 + i) = at2 (tj_ys t) k i /\ at2 M k (1 + tj_dim t + i) = at2 (tj_yds t) k i /\
                                   at2 M k (1 + 2 * tj_dim t + i) = at2 (tj_ydds t) k i) /\
    (forall j, (j < misc_cols t)%nat -> at2 M k (1 + 3 * tj_dim t + j) = misc_at t k j).
Proof. exact as_matrix_entries. Qed.
Print Assumptions C56_entries.
Theorem C56_dataframe_partial : forall t, consistent t -> tj_ts t <> [] -> (forall l, tj_misc t <> Some (V1 l)) -> exists M,
  as_matrix t = Ok M /\
  let names := ("t"%string :: labels_of "y" (tj_dim t) ++ labels_of "yd" (tj_dim t) ++ labels_of "ydd" (tj_dim t) ++ labels_of "misc" (misc_cols t))%list in
  as_dataframe t = Ok (names, M) /\ NoDup names.
Proof. intros t H1 H2 H3. destruct (dataframe_ok t H1 H2 H3) as (M & E & E'). exists M. split; [exact E|]. split; [exact E'|apply names_nodup]. Qed.
Print Assumptions C56_dataframe_partial.
Theorem C56_dataframe_refuted : exists t, consistent t /\ tj_ts t <> [] /\ as_dataframe t = Err IndexError.
Proof. exists ex_v. split; [exact ex_v_ok|]. split; [discriminate|reflexivity]. Qed.
Print Assumptions C56_dataframe_refuted.
Example C56_case : consistent ex_t /\ as_matrix ex_t = Ok (Mat 6 [[0; 0; 1; 0.5; 7; 8]; [1; 1; 1.5; 0.5; 9; 10]; [2; 3; 2; 0.5; 11; 12]]) /\ misc_cols ex_t = 2%nat.
Proof. split; [exact ex_t_ok|]. split; reflexivity. Qed.

(** ** C57. Full statement: both append and prepend give increasing times. For prepend this is false:
    it holds exactly if the prepended trajectory starts before its mean time step. *)
Theorem C57_append : forall t u dt, consistent t -> consistent u -> joinable t u -> tj_ts t <> [] -> tj_ts u <> [] -> tj_dt t = Some dt ->
  exists t', append t u = (t', Ok tt) /\ consistent t' /\ joined t u t' /\ tj_dim t' = tj_dim t /\ tj_dt t' = tj_dt t /\
    tj_ts t' = (tj_ts t ++ map (fun x => x + (last (tj_ts t) 0 + dt - nth 0 (tj_ts u) 0)) (tj_ts u))%list /\
    (increasing (tj_ts t) -> increasing (tj_ts u) -> 0 < dt -> increasing (tj_ts t')).
Proof.
  intros t u dt H1 H2 H3 H4 H5 H6. destruct (append_ok t u dt H1 H2 H3 H4 H5 H6) as (t' & E & C & J & D & DT & T). exists t'.
  repeat (split; [assumption|]). intros I1 I2 Hp. rewrite T. now apply append_increasing.
Qed.
Print Assumptions C57_append.
(** the mean time step of increasing times is positive *)
Theorem C57_step_positive : forall ts d, increasing ts -> dt_mean ts = Some d -> 0 < d.
Proof. exact dt_mean_pos. Qed.
Print Assumptions C57_step_positive.
Theorem C57_prepend_partial : forall t u dt, consistent t -> consistent u -> joinable t u -> tj_ts t <> [] -> tj_ts u <> [] -> tj_dt u = Some dt ->
  exists t', prepend t u = (t', Ok tt) /\ consistent t' /\ joined u t t' /\ tj_dim t' = tj_dim t /\ tj_dt t' = tj_dt t /\
    tj_ts t' = (tj_ts u ++ map (fun x => x + (last (tj_ts u) 0 - nth 0 (tj_ts u) 0 + dt - nth 0 (tj_ts t) 0)) (tj_ts t))%list /\
    (increasing (tj_ts t) -> increasing (tj_ts u) -> (increasing (tj_ts t') <-> nth 0 (tj_ts u) 0 < dt)).
Proof.
  intros t u dt H1 H2 H3 H4 H5 H6. destruct (prepend_ok t u dt H1 H2 H3 H4 H5 H6) as (t' & E & C & J & D & DT & T). exists t'.
  repeat (split; [assumption|]). intros I1 I2. rewrite T. now apply prepend_increasing.
Qed.
Print Assumptions C57_prepend_partial.
Theorem C57_prepend_refuted : exists t u t', consistent t /\ consistent u /\ joinable t u /\ increasing (tj_ts t) /\ increasing (tj_ts u) /\
  fresh_dt u /\ prepend t u = (t', Ok tt) /\ ~ increasing (tj_ts t').
Proof.
  destruct prepend_breaks as (t' & E & N). exists ex_t, ex_u, t'. split; [exact ex_t_ok|]. split; [exact ex_u_ok|]. split; [exact ex_tu_joinable|].
  split; [exact ex_t_inc|]. split; [exact ex_u_inc|]. split; [|auto]. unfold fresh_dt. cbn. f_equal. lra.
Qed.
Print Assumptions C57_prepend_refuted.
(** a trajectory appended to itself, and prepended to itself: both parts get the same times *)
Theorem C57_append_self : forall t dt, consistent t -> tj_ts t <> [] -> tj_dt t = Some dt ->
  exists t', append t t = (t', Ok tt) /\ joined t t t' /\ (increasing (tj_ts t) -> 0 < dt -> increasing (tj_ts t')).
Proof.
  intros t dt H1 H2 H3. destruct (C57_append t t dt H1 H1 (joinable_self t) H2 H2 H3) as (t' & E & _ & J & _ & _ & _ & I). exists t'. auto.
Qed.
Print Assumptions C57_append_self.
Theorem C57_prepend_self_refuted : forall t dt, consistent t -> tj_ts t <> [] -> tj_dt t = Some dt ->
  exists t' ts, prepend_self t = (t', Ok tt) /\ joined t t t' /\ tj_ts t' = (ts ++ ts)%list /\ ~ increasing (tj_ts t').
Proof.
  intros t dt H1 H2 H3. destruct (prepend_self_ok t dt H1 H2 H3) as (t' & E & _ & J & _ & _ & T). cbv zeta in T. exists t'. eexists. split; [exact E|]. split; [exact J|].
  split; [exact T|]. rewrite T. apply twice_not_increasing. destruct (tj_ts t); [contradiction|discriminate].
Qed.
Print Assumptions C57_prepend_self_refuted.
Example C57_case : consistent ex_t /\ consistent ex_u /\ joinable ex_t ex_u /\ tj_dt ex_t = Some 1 /\ increasing (tj_ts ex_t) /\ increasing (tj_ts ex_u).
Proof. auto 10 using ex_t_ok, ex_u_ok, ex_tu_joinable, ex_t_inc, ex_u_inc. Qed.

(** ** C58. Full statement: cropping by times keeps exactly the rows with start <= t < end. False if
    end lies after the last time (the last row is then dropped); the theorem says which rows are kept
    for every interval that meets the trajectory. *)
Theorem C58_index : forall t a b, consistent t -> (a < b)%nat -> (b <= length (tj_ts t))%nat -> (forall l, tj_misc t <> Some (V1 l)) ->
  exists t', crop t (Z.of_nat a) (Z.of_nat b) = (t', Ok tt) /\ keeps_rows t t' a b.
Proof. exact crop_index. Qed.
Print Assumptions C58_index.
Theorem C58_times_partial : forall t s e, consistent t -> increasing (tj_ts t) -> tj_ts t <> [] -> (forall l, tj_misc t <> Some (V1 l)) ->
  s < e -> s <= last (tj_ts t) 0 -> nth 0 (tj_ts t) 0 <= e -> exists t' a b,
  crop_times t s e = (t', Ok tt) /\ keeps_rows t t' a b /\ (a <= length (tj_ts t))%nat /\ (b < length (tj_ts t))%nat /\
  forall i, (i < length (tj_ts t))%nat ->
    (a <= i < b)%nat <-> s <= nth i (tj_ts t) 0 < e /\ (last (tj_ts t) 0 < e -> (S i < length (tj_ts t))%nat).
Proof. exact crop_times_rows. Qed.
Print Assumptions C58_times_partial.
Theorem C58_times_refuted : exists t t' s e, consistent t /\ increasing (tj_ts t) /\ s < e /\ (forall x, In x (tj_ts t) -> s <= x < e) /\
  crop_times t s e = (t', Ok tt) /\ length (tj_ts t') <> length (tj_ts t).
Proof.
  destruct crop_loses_last as (t' & E & T). exists ex_t, t', (-1), 10. split; [exact ex_t_ok|]. split; [exact ex_t_inc|]. split; [lra|].
  split; [intros x H; cbn in H; intuition lra|]. split; [exact E|]. rewrite T. cbn. discriminate.
Qed.
Print Assumptions C58_times_refuted.
Theorem C58_outside : forall t s e, tj_ts t <> [] -> s < e -> last (tj_ts t) 0 < s \/ e < nth 0 (tj_ts t) 0 -> crop_times t s e = (t, Ok tt).
Proof. exact crop_times_outside. Qed.
Print Assumptions C58_outside.
Theorem C58_empty_interval : forall t, tj_ts t <> [] ->
  (forall s e, (e <= s)%Z -> crop t s e = (t, Err ValueError)) /\ (forall s e, e <= s -> crop_times t s e = (t, Err ValueError)).
Proof.
  intros t Hne. unfold crop, crop_times. destruct (tj_ts t); [contradiction|]. split; intros s e H.
  - apply Z.leb_le in H. now rewrite H.
  - now destruct (Rle_dec e s).
Qed.
Print Assumptions C58_empty_interval.
Example C58_case : consistent ex_t /\ increasing (tj_ts ex_t) /\ (forall l, tj_misc ex_t <> Some (V1 l)) /\ 0.5 <= last (tj_ts ex_t) 0 /\ nth 0 (tj_ts ex_t) 0 <= 2.
Proof. split; [exact ex_t_ok|]. split; [exact ex_t_inc|]. split; [exact ex_t_misc|]. cbn. lra. Qed.

(** ** C59. Full statement: with floating-point times. Proved over the real numbers; in double precision
    np.arange may give a row too many, and padding then raises (refuted below). Misc values are lost. *)
Theorem C59_pad_end_partial : forall t n d, consistent t -> tj_ts t <> [] -> (1 <= n)%nat -> tj_dt t = Some d -> d <> 0 -> exists t',
  pad_end t n = (t', Ok tt) /\ consistent t' /\ tj_dim t' = tj_dim t /\
  tj_ts t' = (tj_ts t ++ map (fun i => last (tj_ts t) 0 + INR (S i) * d) (seq 0 n))%list /\
  mrows (tj_ys t') = (mrows (tj_ys t) ++ repeat (last (mrows (tj_ys t)) []) n)%list /\
  mrows (tj_yds t') = (mrows (tj_yds t) ++ repeat (repeat 0 (tj_dim t)) n)%list /\
  mrows (tj_ydds t') = (mrows (tj_ydds t) ++ repeat (repeat 0 (tj_dim t)) n)%list /\ tj_misc t' = None.
Proof. exact pad_end_ok. Qed.
Print Assumptions C59_pad_end_partial.
Theorem C59_pad_front_partial : forall t n d, consistent t -> tj_ts t <> [] -> (2 <= n)%nat -> tj_dt t = Some d -> d <> 0 -> exists t',
  pad_front t n = (t', Ok tt) /\ consistent t' /\ tj_dim t' = tj_dim t /\
  tj_ts t' = (map (fun i => INR i * d) (seq 0 n) ++ map (fun x => x + (INR n * d - nth 0 (tj_ts t) 0)) (tj_ts t))%list /\
  mrows (tj_ys t') = (repeat (nth 0 (mrows (tj_ys t)) []) n ++ mrows (tj_ys t))%list /\
  mrows (tj_yds t') = (repeat (repeat 0 (tj_dim t)) n ++ mrows (tj_yds t))%list /\
  mrows (tj_ydds t') = (repeat (repeat 0 (tj_dim t)) n ++ mrows (tj_ydds t))%list /\ tj_misc t' = None.
Proof. exact pad_front_ok. Qed.
Print Assumptions C59_pad_front_partial.
(** 0.1 and 3 in double precision: arange gives 4 times for 3 rows; with any times of another number
    than that of the rows, padding raises ValueError *)
Theorem C59_arange_refuted : exists n dt, dt = SFdiv 53 1024 (sf_of_nat 1) (sf_of_nat 10) /\ arange_length n dt = Some (Z.of_nat n + 1)%Z /\ (2 <= n)%nat /\
  forall t ts y, Z.of_nat (length ts) = (Z.of_nat n + 1)%Z -> pad_rows t ts n y = Err ValueError.
Proof. exists 3%nat, tenth. split; [reflexivity|]. split; [exact arange_three|]. split; [lia|]. intros t ts y H. apply pad_wrong_length. lia. Qed.
Print Assumptions C59_arange_refuted.
(** a single row in front gives times that are not numbers *)
Theorem C59_one_row_refuted : exists t t', consistent t /\ fresh_dt t /\ pad_front t 1 = (t', Err NonFinite).
Proof. destruct pad_front_one as (t' & E). exists ex_t, t'. split; [exact ex_t_ok|]. split; [unfold fresh_dt; cbn; f_equal; lra|exact E]. Qed.
Print Assumptions C59_one_row_refuted.
Example C59_case : consistent ex_t /\ tj_ts ex_t <> [] /\ tj_dt ex_t = Some 1 /\ 1 <> 0.
Proof. split; [exact ex_t_ok|]. split; [discriminate|]. split; [reflexivity|lra]. Qed.

(** ** C60 *)
Theorem C60_central_differences : forall n c ts ys d, samples n c ys -> length ts = n -> (3 <= n)%nat -> equidistant d ts -> d <> 0 -> exists t,
  new_traj ts (V2 ys) None None None = Ok t /\ consistent t /\ tj_ys t = ys /\ tj_ts t = ts /\
  forall i, (i < c)%nat ->
    (forall k, (1 <= k)%nat -> (S k < n)%nat -> at2 (tj_yds t) k i = (at2 ys (S k) i - at2 ys (k - 1) i) / (2 * d) /\
                                              at2 (tj_ydds t) k i = (at2 (tj_yds t) (S k) i - at2 (tj_yds t) (k - 1) i) / (2 * d)) /\
    at2 (tj_yds t) 0 i = at2 (tj_yds t) 1 i /\ at2 (tj_yds t) (n - 1) i = at2 (tj_yds t) (n - 2) i /\
    at2 (tj_ydds t) 0 i = at2 (tj_ydds t) 1 i /\ at2 (tj_ydds t) (n - 1) i = at2 (tj_ydds t) (n - 2) i.
Proof. exact new_derived. Qed.
Print Assumptions C60_central_differences.
Theorem C60_quadratics : forall n c ts ys d i (q0 q1 q2 : R) t, samples n c ys -> length ts = n -> (3 <= n)%nat -> equidistant d ts -> d <> 0 -> (i < c)%nat ->
  (forall k, (k < n)%nat -> at2 ys k i = q0 + q1 * nth k ts 0 + q2 * nth k ts 0 ^ 2) -> new_traj ts (V2 ys) None None None = Ok t ->
  (forall k, (1 <= k)%nat -> (S k < n)%nat -> at2 (tj_yds t) k i = q1 + 2 * q2 * nth k ts 0) /\
  (forall k, (2 <= k)%nat -> (S (S k) < n)%nat -> at2 (tj_ydds t) k i = 2 * q2).
Proof. exact new_quadratic. Qed.
Print Assumptions C60_quadratics.
(** two samples are accepted, but the velocities have nothing to do with the slope *)
Theorem C60_two_samples : forall a b d, d <> 0 -> exists m, diffnc (Mat 1 [[a]; [b]]) (Some d) = Ok m /\ at2 m 0 0 = - a / (2 * d) /\ at2 m 1 0 = - a / (2 * d).
Proof. exact diff_two. Qed.
Print Assumptions C60_two_samples.
Example C60_case : samples 3 1 (Mat 1 [[0]; [1]; [4]]) /\ equidistant 1 [0; 1; 2] /\
  forall k, (k < 3)%nat -> at2 (Mat 1 [[0]; [1]; [4]]) k 0 = 0 + 0 * nth k [0; 1; 2] 0 + 1 * nth k [0; 1; 2] 0 ^ 2.
Proof.
  split; [samp|]. split.
  - intros [|[|i]] H; cbn in *; try lia; lra.
  - intros [|[|[|k]]] H; unfold at2; cbn; try lia; lra.
Qed.

(** ** C84 *)
Theorem C84_text_files : forall rnd t, decimals7 rnd -> consistent t -> (2 <= length (tj_ts t))%nat -> (1 <= tj_dim t)%nat -> exists file t',
  savetxt rnd t = Ok file /\ loadtxt file (misc_cols t) = Ok t' /\ consistent t' /\ tj_dim t' = tj_dim t /\ length (tj_ts t') = length (tj_ts t) /\
  misc_cols t' = misc_cols t /\ fresh_dt t' /\
  (forall k, (k < length (tj_ts t))%nat ->
    Rabs (nth k (tj_ts t') 0 - nth k (tj_ts t) 0) <= 0.5 / 10000000 /\
    (forall i, (i < tj_dim t)%nat -> Rabs (at2 (tj_ys t') k i - at2 (tj_ys t) k i) <= 0.5 / 10000000 /\
       Rabs (at2 (tj_yds t') k i - at2 (tj_yds t) k i) <= 0.5 / 10000000 /\ Rabs (at2 (tj_ydds t') k i - at2 (tj_ydds t) k i) <= 0.5 / 10000000) /\
    (forall j, (j < misc_cols t)%nat -> Rabs (misc_at t' k j - misc_at t k j) <= 0.5 / 10000000)) /\
  ((forall k, (S k < length (tj_ts t))%nat -> nth k (tj_ts t) 0 + 1 / 10000000 < nth (S k) (tj_ts t) 0) -> increasing (tj_ts t')) /\
  (exists t'', savetxt rnd t' = Ok file /\ loadtxt file (misc_cols t') = Ok t'' /\ t'' = t').
Proof.
  intros rnd t Hr Ht Hn Hd. destruct (file_roundtrip rnd t Ht Hn Hd) as (file & t' & E1 & E2 & C & D & L & M & F & X). exists file, t'.
  split; [exact E1|]. split; [exact E2|]. split; [exact C|]. split; [exact D|]. split; [exact L|]. split; [exact M|]. split; [now apply fresh_iff|].
  assert (B : forall x, Rabs (rnd x - x) <= 0.5 / 10000000) by (intros x; now destruct (Hr x) as (_ & _ & B)).
  split; [|split].
  - intros k Hk. destruct (X k Hk) as (X1 & X2 & X3). split; [rewrite X1; apply B|]. split.
    + intros i Hi. destruct (X2 i Hi) as (-> & -> & ->). auto.
    + intros j Hj. rewrite (X3 j Hj). apply B.
  - intros Hs. assert (S1 : forall k, (S k < length (tj_ts t'))%nat -> nth k (tj_ts t') 0 < nth (S k) (tj_ts t') 0).
    { intros k Hk. rewrite L in Hk. rewrite (proj1 (X k ltac:(lia))), (proj1 (X (S k) Hk)). apply decimals7_mono; auto. }
    intros i j Hij Hj. induction Hij as [|j Hij IH]; [now apply S1|]. specialize (IH ltac:(lia)). specialize (S1 j ltac:(lia)). lra.
  - exists t'. destruct (as_matrix_rows t Ht) as (A & EA & SA & _). destruct (as_matrix_rows t' C) as (A' & EA' & SA' & _).
    destruct (as_matrix_entries t A Ht EA) as (_ & EnA). destruct (as_matrix_entries t' A' C EA') as (_ & EnA').
    assert (EF : file = Mat (mcols A) (map (map rnd) (mrows A))) by (unfold savetxt in E1; rewrite EA in E1; cbn [bind] in E1; congruence).
    assert (Q : Mat (mcols A') (map (map rnd) (mrows A')) = file).
    { rewrite EF. rewrite L, D, M in SA'. apply (samples_eq (length (tj_ts t)) (1 + 3 * tj_dim t + misc_cols t)); [now apply map_samples|now apply map_samples|].
      intros k Hk. apply (nth_ext _ _ 0 0).
      - rewrite (nth_row _ _ _ k (map_samples rnd _ _ _ SA') Hk), (nth_row _ _ _ k (map_samples rnd _ _ _ SA) Hk). reflexivity.
      - intros q Hq. rewrite (nth_row _ _ _ k (map_samples rnd _ _ _ SA') Hk) in Hq. fold (at2 (Mat (mcols A') (map (map rnd) (mrows A'))) k q). fold (at2 (Mat (mcols A) (map (map rnd) (mrows A))) k q).
        rewrite (map_at2 rnd _ _ _ _ _ _ SA' Hk Hq), (map_at2 rnd _ _ _ _ _ _ SA Hk Hq).
        assert (Z : at2 A' k q = rnd (at2 A k q)); [|rewrite Z; now apply decimals7_stable].
        rewrite L, D, M in EnA'. destruct (EnA k Hk) as (G1 & G2 & G3), (EnA' k Hk) as (G1' & G2' & G3'), (X k Hk) as (X1 & X2 & X3).
        set (dd := tj_dim t) in *. destruct q as [|q]; [now rewrite G1, G1'|]. destruct (Nat.lt_ge_cases q dd) as [Hq1|Hq1].
        { change (S q) with (1 + q)%nat. rewrite (proj1 (G2 q Hq1)), (proj1 (G2' q Hq1)). apply X2. exact Hq1. }
        destruct (Nat.lt_ge_cases q (2 * dd)) as [Hq2|Hq2].
        { replace (S q) with (1 + dd + (q - dd))%nat by lia. rewrite (proj1 (proj2 (G2 (q - dd)%nat ltac:(lia)))), (proj1 (proj2 (G2' (q - dd)%nat ltac:(lia)))). apply X2. lia. }
        destruct (Nat.lt_ge_cases q (3 * dd)) as [Hq3|Hq3].
        { replace (S q) with (1 + 2 * dd + (q - 2 * dd))%nat by lia. rewrite (proj2 (proj2 (G2 (q - 2 * dd)%nat ltac:(lia)))), (proj2 (proj2 (G2' (q - 2 * dd)%nat ltac:(lia)))). apply X2. lia. }
        replace (S q) with (1 + 3 * dd + (q - 3 * dd))%nat by lia. rewrite (G3 (q - 3 * dd)%nat ltac:(lia)), (G3' (q - 3 * dd)%nat ltac:(lia)). apply X3. lia. }
    split; [unfold savetxt; rewrite EA'; cbn [bind]; congruence|]. split; [now rewrite M|reflexivity].
Qed.
Print Assumptions C84_text_files.
(** times closer than the precision of the file coincide after reloading *)
Theorem C84_close_times : forall rnd, decimals7 rnd -> exists t file t',
  consistent t /\ increasing (tj_ts t) /\ savetxt rnd t = Ok file /\ loadtxt file (misc_cols t) = Ok t' /\ ~ increasing (tj_ts t').
Proof.
  intros rnd Hr. set (t := Traj [0; 1 / 100000000] (Some (1 / 100000000)) 1 (Mat 1 [[0]; [1]]) (Mat 1 [[0]; [0]]) (Mat 1 [[0]; [0]]) None).
  assert (Ht : consistent t) by (unfold t; cons; discriminate).
  destruct (file_roundtrip rnd t Ht ltac:(cbn; lia) ltac:(cbn; lia)) as (file & t' & E1 & E2 & _ & _ & L & _ & _ & X).
  exists t, file, t'. split; [exact Ht|]. split; [unfold t; cbn; apply inc2; lra|]. split; [exact E1|]. split; [exact E2|]. intros H. cbn in L.
  specialize (H 0%nat 1%nat ltac:(lia) ltac:(lia)). rewrite (proj1 (X 0%nat ltac:(cbn; lia))), (proj1 (X 1%nat ltac:(cbn; lia))) in H.
  rewrite !(decimals7_zero rnd) in H; trivial; [lra| |]; cbn; rewrite Rabs_right; lra.
Qed.
Print Assumptions C84_close_times.
Example C84_case : consistent ex_t /\ (2 <= length (tj_ts ex_t))%nat /\ (1 <= tj_dim ex_t)%nat /\
  forall k, (S k < length (tj_ts ex_t))%nat -> nth k (tj_ts ex_t) 0 + 1 / 10000000 < nth (S k) (tj_ts ex_t) 0.
Proof. split; [exact ex_t_ok|]. cbn. split; [lia|]. split; [lia|]. intros [|[|k]] H; cbn; try lra; lia. Qed.

(** ** C85. Full statement: dt_mean is always the mean time step. False: it is not updated (refuted);
    proved right after construction and for all histories of uniformly sampled trajectories. *)
Theorem C85_constructed : forall ts ys yds ydds misc t, new_traj ts ys yds ydds misc = Ok t -> fresh_dt t /\ tj_ts t = ts.
Proof. exact new_fresh. Qed.
Print Assumptions C85_constructed.
Theorem C85_uniform_partial : forall d cs t t', uniform d t -> Forall (uniform_call d) cs -> t_run t cs = (t', Ok tt) ->
  uniform d t' /\ ((2 <= length (tj_ts t'))%nat -> fresh_dt t').
Proof. intros d cs t t' H1 H2 E. pose proof (run_uniform d cs t t' H1 H2 E) as H. split; [exact H|]. now apply (uniform_fresh d). Qed.
Print Assumptions C85_uniform_partial.
Theorem C85_crop_refuted : exists t t', consistent t /\ fresh_dt t /\ crop t 0 2 = (t', Ok tt) /\ ~ fresh_dt t'.
Proof. destruct crop_stale as (t' & E & N). exists ex_n, t'. auto using ex_n_ok, ex_n_fresh. Qed.
Print Assumptions C85_crop_refuted.
Example C85_case : uniform 1 ex_t /\ Forall (uniform_call 1) [TAppend ex_u; TPadFront 3; TCrop 1 4].
Proof.
  assert (U : uniform 1 ex_t). { split; [exact ex_t_ok|]. split; [reflexivity|]. intros [|[|i]] H; cbn in *; try lia; lra. }
  assert (U' : uniform 1 ex_u). { split; [exact ex_u_ok|]. split; [reflexivity|]. intros [|[|i]] H; cbn in *; try lia; lra. }
  split; [exact U|]. constructor; [split; [exact ex_u_ok|exact U']|]. constructor; [split; [exact I|cbn; lia]|]. constructor; [split; exact I|]. constructor.
Qed.
