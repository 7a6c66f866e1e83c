(** C99, C100: trajectories in C++ and the text files exchanged with Python. *)
From Coq Require Import String.
From Coquelicot Require Import Coquelicot.
From Verif Require Import Base BaseLemmas FaModel FaProofs2 TrajModel TrajSpec TrajProofs TrajProofs2 TrajProofs3 TrajProofs4 TrajProofs6 TrajExamples.
From Verif Require Import CppTrajModel CppTrajSpec CppTrajProofs CppTrajProofs2 CppTrajProofs3 CppTrajExamples.
Open Scope R_scope.

(** ** C99: text files *)
Theorem C99_python_to_cpp : forall rnd t, decimals (/ 10000000) rnd -> consistent t -> (1 <= length (tj_ts t))%nat -> exists ls c,
  py_save rnd t = Ok ls /\ c_read ls (misc_cols t) = Ok c /\ c_consistent (length (tj_ts t)) (tj_dim t) (misc_cols t) c /\ near (/ 10000000 / 2) t c /\
  ((2 <= length (tj_ts t))%nat -> (1 <= tj_dim t)%nat -> exists t', py_read ls (misc_cols t) = Ok t' /\ consistent t' /\ same_data t' c).
Proof.
  intros rnd t Hr Ht Hn. destruct (py_to_cpp rnd t Ht Hn) as (ls & c & A & B & C & D & E). exists ls, c. split; [exact A|]. split; [exact B|]. split; [exact C|].
  split; [now apply (rounds_near _ rnd)|exact E].
Qed.
Print Assumptions C99_python_to_cpp.
Example C99_python_to_cpp_case : decimals (/ 10000000) (nearest (/ 10000000)) /\ consistent ex_t /\ (2 <= length (tj_ts ex_t))%nat /\ misc_cols ex_t = 2%nat.
Proof. split; [apply nearest_ok; lra|]. split; [apply ex_t_ok|]. split; [cbn; lia|reflexivity]. Qed.

Theorem C99_cpp_to_python : forall rnd n d m c, decimals (/ 1000000) rnd -> c_consistent n d m c -> (1 <= n)%nat -> exists ls c',
  c_save rnd c = Ok ls /\ c_read ls m = Ok c' /\ c_consistent n d m c' /\ c_near (/ 1000000 / 2) c c' /\
  (exists ls', c_save rnd c' = Ok ls' /\ c_read ls' m = Ok c') /\
  ((2 <= n)%nat -> (1 <= d)%nat -> exists t, py_read ls m = Ok t /\ consistent t /\ fresh_dt t /\ same_data t c').
Proof.
  intros rnd n d m c Hr Hc Hn. destruct (cpp_to_py rnd n d m c Hc Hn) as (ls & c' & A & B & C & D & E). exists ls, c'. split; [exact A|]. split; [exact B|]. split; [exact C|].
  split; [now apply (rounds_c_near _ rnd n d m)|]. split; [|exact E]. apply (cpp_stable rnd n d m c ls c'); trivial. intros x. apply (decimals_stable (/ 1000000)); trivial. lra.
Qed.
Print Assumptions C99_cpp_to_python.
Example C99_cpp_to_python_case : decimals (/ 1000000) (nearest (/ 1000000)) /\ c_consistent 3 1 2 ex_c.
Proof. split; [apply nearest_ok; lra|apply ex_c_ok]. Qed.

(** Reading without saying how many misc variables there are. *)
Theorem C99_misc_left_out : forall rnd t, consistent t -> (1 <= length (tj_ts t))%nat -> exists ls c, py_save rnd t = Ok ls /\ c_read ls 0 = Ok c /\
  c_consistent (length (tj_ts t)) (tj_dim t + misc_cols t / 3) 0 c /\
  ((misc_cols t < 3)%nat -> forall k, (k < length (tj_ts t))%nat -> nth k (ct_ts c) 0 = rnd (nth k (tj_ts t) 0) /\
     forall i, (i < tj_dim t)%nat -> at2 (ct_ys c) k i = rnd (at2 (tj_ys t) k i) /\ at2 (ct_yds c) k i = rnd (at2 (tj_yds t) k i) /\
                                   at2 (ct_ydds c) k i = rnd (at2 (tj_ydds t) k i)) /\
  ((2 <= length (tj_ts t))%nat -> (1 <= tj_dim t)%nat -> exists t', py_read ls 0 = Ok t' /\ tj_dim t' = (tj_dim t + misc_cols t / 3)%nat).
Proof. exact misc_left_out. Qed.
Print Assumptions C99_misc_left_out.

Theorem C99_not_a_number : forall ls l k, In l ls -> In None (words l) -> exists e, c_read ls k = Err e.
Proof. exact c_read_bad. Qed.
Print Assumptions C99_not_a_number.
Example C99_not_a_number_case : In None (words (Line (Some 1 :: None :: nil) false)).
Proof. cbn. auto. Qed.

(** Refuted: "C++ and Python read the same trajectory from every text file that Python accepts": one empty line
    at the end, and C++ silently returns one more time step and fewer dimensions. *)
Theorem C99_empty_line_refuted : forall rnd t ls, consistent t -> (1 <= length (tj_ts t))%nat -> (1 <= tj_dim t)%nat -> misc_cols t = 0%nat -> py_save rnd t = Ok ls ->
  exists c, c_read (ls ++ empty_line :: nil) 0 = Ok c /\ (c_dim c < tj_dim t)%nat /\ length (ct_ts c) = S (length (tj_ts t)) /\
  py_read (ls ++ empty_line :: nil) 0 = py_read ls 0.
Proof. exact empty_line_read. Qed.
Print Assumptions C99_empty_line_refuted.
Example C99_empty_line_case : consistent ex_w /\ misc_cols ex_w = 0%nat /\ exists ls, py_save (nearest (/ 10000000)) ex_w = Ok ls.
Proof. split; [apply ex_w_ok|]. split; [reflexivity|]. eexists. reflexivity. Qed.

(** Saving: what the result says happened. *)
Theorem C99_save : forall writable s f ls ow s' b, save_file writable s f ls ow = (s', b) ->
  (b = true -> files s' f = Some ls /\ (files s f = None \/ ow = true) /\ forall g, g <> f -> files s' g = files s g) /\
  (b = false -> s' = s).
Proof. exact save_file_spec. Qed.
Print Assumptions C99_save.
Example C99_save_case : exists s', save_file (fun _ => true) (Disk (fun _ => None) (fun _ => true)) "traj.txt" (Line (Some 1 :: nil) false :: nil) false = (s', true).
Proof. eexists. reflexivity. Qed.
(** Refuted: "saving into a directory returns true only if the file was written". *)
Theorem C99_save_dir_refuted : forall writable creatable s dir f ls old ow, dir <> EmptyString -> dirs s dir = true ->
  files s (dir ++ "/" ++ f)%string = Some old -> ow = false \/ writable (dir ++ "/" ++ f)%string = false ->
  save_in_dir writable creatable s dir f ls ow = (s, true).
Proof.
  intros writable creatable s dir f ls old ow Hd Hs Hf H. unfold save_in_dir. apply String.eqb_neq in Hd. rewrite Hd, Hs. unfold save_file. rewrite Hf.
  destruct H as [->| ->]; cbn [negb]; [reflexivity|]. now destruct ow.
Qed.
Print Assumptions C99_save_dir_refuted.
Example C99_save_dir_case : dirs (Disk (fun _ => Some nil) (fun _ => true)) "out" = true /\ files (Disk (fun _ => Some nil) (fun _ => true)) ("out" ++ "/" ++ "traj.txt")%string = Some nil.
Proof. split; reflexivity. Qed.

(** ** C100: generators and append *)
Theorem C100_min_jerk : forall ts y y', same_outcome (from_min_jerk ts y y') (c_min_jerk ts y y').
Proof. exact min_jerk_same. Qed.
Print Assumptions C100_min_jerk.
Theorem C100_polynomial : forall ts y v a y' v' a', same_outcome (from_polynomial ts y v a y' v' a') (c_polynomial ts y v a y' v' a').
Proof. exact polynomial_same. Qed.
Print Assumptions C100_polynomial.

Theorem C100_append : forall debug n m d k c u, c_consistent n d k c -> c_consistent m d k u -> (1 <= n)%nat -> (1 <= m)%nat -> meets n d c u ->
  exists r, c_append debug c u = Ok r /\ c_consistent (n + m - 1) d k r /\ c_joined n c u r /\
  (increasing (ct_ts c) -> increasing (ct_ts u) -> increasing (ct_ts r)).
Proof.
  intros debug n m d k c u Hc Hu Hn Hm H. destruct (append_gen debug n m d k c u Hc Hu Hn Hm (fun _ => H)) as (r & E & C & J). exists r. split; [exact E|]. split; [exact C|]. split; [exact J|].
  intros I1 I2. pose proof J as (-> & _). destruct Hc as (L1 & _), Hu as (L2 & _). apply joined_increasing; trivial; try (intros Z; rewrite Z in *; cbn in *; lia). now destruct H.
Qed.
Print Assumptions C100_append.
Example C100_append_case : c_consistent 3 1 2 ex_c /\ c_consistent 2 1 2 ex_d /\ meets 3 1 ex_c ex_d.
Proof. split; [apply ex_c_ok|]. split; [apply ex_d_ok|apply ex_meet]. Qed.
(** Without assertions the seam is not checked: the first sample of the second trajectory is dropped. *)
Theorem C100_append_unchecked : forall n m d k c u, c_consistent n d k c -> c_consistent m d k u -> (1 <= n)%nat -> (1 <= m)%nat ->
  exists r, c_append false c u = Ok r /\ c_consistent (n + m - 1) d k r /\ c_joined n c u r.
Proof. intros n m d k c u Hc Hu Hn Hm. apply append_gen; trivial. discriminate. Qed.
Print Assumptions C100_append_unchecked.

Theorem C100_viapoint : forall ts y via vt y' k, increasing ts -> (1 <= k)%nat -> (k + 2 <= length ts)%nat -> nth (k - 1) ts 0 < vt -> vt <= nth k ts 0 ->
  length via = (3 * length y)%nat -> length y' = length y ->
  let n := length ts in let d := length y in let D1 := nth k ts 0 - nth 0 ts 0 in let D2 := nth (n - 1) ts 0 - nth k ts 0 in
  forall debug, (debug = true -> forall i, (i < d)%nat -> nth (d + i) via 0 = 0 /\ nth (2 * d + i) via 0 = 0) -> exists c,
  c_viapoint debug ts y via vt y' = Ok c /\ c_consistent n d 0 c /\ ct_ts c = ts /\
  forall i, (i < d)%nat ->
    at2 (ct_ys c) 0 i = nth i y 0 /\ at2 (ct_yds c) 0 i = 0 /\ at2 (ct_ydds c) 0 i = 0 /\
    at2 (ct_ys c) k i = nth i via 0 /\ at2 (ct_yds c) k i = nth (d + i) via 0 / D1 /\ at2 (ct_ydds c) k i = nth (2 * d + i) via 0 / D1 ^ 2 /\
    at2 (ct_ys c) (n - 1) i = nth i y' 0 - nth (2 * d + i) via 0 / 2 /\ at2 (ct_yds c) (n - 1) i = - nth (2 * d + i) via 0 / D2 /\ at2 (ct_ydds c) (n - 1) i = 0.
Proof. intros ts y via vt y' k H1 H2 H3 H4 H5 H6 H7 n d D1 D2 debug H. now apply c_viapoint_ok. Qed.
Print Assumptions C100_viapoint.
Example C100_viapoint_case : increasing steps4 /\ nth (2 - 1) steps4 0 < 1.5 <= nth 2 steps4 0 /\ length (1 :: 0 :: 0 :: nil) = (3 * length (0 :: nil))%nat.
Proof. split; [apply steps4_inc|]. split; [cbn; lra|reflexivity]. Qed.

(** Refuted: "a trajectory through any via-point can be generated": with assertions, a moving via-point fails
    when the second part takes at least twice as long as the first. *)
Theorem C100_moving_viapoint_refuted : forall ts y via vt y' k, increasing ts -> (1 <= k)%nat -> (k + 2 <= length ts)%nat -> nth (k - 1) ts 0 < vt -> vt <= nth k ts 0 ->
  length via = (3 * length y)%nat -> length y' = length y ->
  let n := length ts in let d := length y in let D1 := nth k ts 0 - nth 0 ts 0 in let D2 := nth (n - 1) ts 0 - nth k ts 0 in
  forall i, 2 * D1 <= D2 -> (i < d)%nat -> eps * D2 < Rabs (nth (d + i) via 0) -> c_viapoint true ts y via vt y' = Err RuntimeError.
Proof. intros ts y via vt y' k H1 H2 H3 H4 H5 H6 H7 n d D1 D2 i HD Hi H. now apply (moving_viapoint ts y via vt y' k H1 H2 H3 H4 H5 H6 H7 i). Qed.
Print Assumptions C100_moving_viapoint_refuted.
Example C100_moving_viapoint_case : c_viapoint true steps6 (0 :: nil) (1 :: 1 :: 0 :: nil) 0.5 (2 :: nil) = Err RuntimeError.
Proof.
  apply (C100_moving_viapoint_refuted steps6 (0 :: nil) (1 :: 1 :: 0 :: nil) 0.5 (2 :: nil) 1 steps6_inc) with (i := 0%nat); cbn; try lia; try lra.
  unfold eps. rewrite Rabs_right; lra.
Qed.

(** Refuted: "Python and C++ generate the same via-point trajectory": Python is at the via-point one step earlier. *)
Theorem C100_viapoint_differs_refuted : exists ts y via vt y' t c, from_viapoint_polynomial ts y via vt y' = Ok t /\ c_viapoint false ts y via vt y' = Ok c /\
  tj_ts t = ct_ts c /\ at2 (tj_ys t) 1 0 = 1 /\ at2 (ct_ys c) 1 0 = 1 / 2.
Proof.
  exists steps4, (0 :: nil), (1 :: 0 :: 0 :: nil), 1.5, (1 :: nil). destruct viapoint_half as (c & E & H).
  destruct (viapoint_ok steps4 (0 :: nil) (1 :: 0 :: 0 :: nil) 1.5 (1 :: nil) 2 steps4_inc) as (t & Et & _ & _ & _ & _ & Eq & _ & P); try (cbn; lia); try (cbn; lra).
  exists t, c. split; [exact Et|]. split; [exact E|].
  assert (T : ct_ts c = steps4).
  { destruct (C100_viapoint steps4 (0 :: nil) (1 :: 0 :: 0 :: nil) 1.5 (1 :: nil) 2 steps4_inc) with (debug := false) as (c' & E' & _ & T & _); try (cbn; lia); try (cbn; lra); try discriminate.
    rewrite E in E'. apply ok_inj in E'. now subst c'. }
  split. { rewrite T. apply (Eq 1). intros q Hq. cbn in Hq. destruct q as [|[|[|q]]]; cbn; try lra; lia. }
  split; [|exact H]. cbv zeta in P. destruct (P 0%nat ltac:(cbn; lia)) as (_ & _ & _ & P4 & _). exact P4.
Qed.
Print Assumptions C100_viapoint_differs_refuted.

(** A via-point after the end: the empty trajectory, without an error. *)
Theorem C100_viapoint_late : forall debug ts y via vt y', (forall k, (k < length ts)%nat -> nth k ts 0 < vt) -> length via = (3 * length y)%nat -> length y' = length y ->
  c_viapoint debug ts y via vt y' = Ok c_empty.
Proof. exact viapoint_late. Qed.
Print Assumptions C100_viapoint_late.
Example C100_viapoint_late_case : forall k, (k < length steps4)%nat -> nth k steps4 0 < 4.
Proof. intros k Hk. cbn in Hk. destruct k as [|[|[|[|k]]]]; try lia; cbn; lra. Qed.

(** Setting the misc variables: a matrix of the right length, one row for all time steps; any other matrix is
    ignored. *)
Theorem C100_set_misc : forall n d k c m, c_consistent n d k c -> (2 <= n)%nat ->
  (samples n (mcols m) m -> c_consistent n d (mcols m) (c_set_misc c m) /\ ct_misc (c_set_misc c m) = m) /\
  (samples 1 (mcols m) m -> c_consistent n d (mcols m) (c_set_misc c m) /\ forall i j, (i < n)%nat -> at2 (ct_misc (c_set_misc c m)) i j = at2 m 0 j) /\
  (nrows m <> n -> nrows m <> 1%nat -> c_set_misc c m = c).
Proof. exact set_misc_ok. Qed.
Print Assumptions C100_set_misc.
Example C100_set_misc_case : c_consistent 3 1 2 ex_c /\ samples 1 1 (Mat 1 ((5 :: nil) :: nil)).
Proof. split; [apply ex_c_ok|samp]. Qed.

(** With assertions, trajectories that do not meet in time are not appended. *)
Theorem C100_append_gap : forall c u, last (ct_ts c) 0 <> nth 0 (ct_ts u) 0 -> c_append true c u = Err RuntimeError.
Proof. exact append_gap. Qed.
Print Assumptions C100_append_gap.
Example C100_append_gap_case : last (ct_ts ex_c) 0 <> nth 0 (ct_ts ex_c) 0.
Proof. cbn. lra. Qed.
(** the generators do succeed *)
Example C100_min_jerk_case : exists c, c_min_jerk steps4 (0 :: nil) (1 :: nil) = Ok c /\ at2 (ct_ys c) 3 0 = 1.
Proof.
  unfold c_min_jerk, steps4. cbn [length Nat.eqb must bind last]. destruct (Req_EM_T 3 0); [lra|]. eexists. split; [reflexivity|]. cbn. field.
Qed.
(** With assertions, only trajectories that meet are appended, up to the precision of the comparison. *)
Theorem C100_append_seam : forall n m d k k' c u r, c_consistent n d k c -> c_consistent m d k' u -> (1 <= n)%nat -> (1 <= m)%nat -> c_append true c u = Ok r ->
  k = k' /\ last (ct_ts c) 0 = nth 0 (ct_ts u) 0 /\ continues n d (ct_ys c) (ct_ys u) /\ continues n d (ct_yds c) (ct_yds u) /\ continues n d (ct_ydds c) (ct_ydds u).
Proof. exact append_seam. Qed.
Print Assumptions C100_append_seam.
Example C100_append_seam_case : exists r, c_append true ex_c ex_d = Ok r.
Proof. destruct (C100_append true 3 2 1 2 ex_c ex_d ex_c_ok ex_d_ok ltac:(lia) ltac:(lia) ex_meet) as (r & E & _). eauto. Qed.
