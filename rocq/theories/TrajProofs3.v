(** Proofs about trajectories: matrices, data frames and files (C56, C84), continued. *)
From Coq Require Import Ascii String FinFun.
From Verif Require Import Base BaseLemmas SessionModel SessionStrings TrajModel TrajSpec TrajProofs TrajProofs2.
Open Scope R_scope.

(** ** entries *)
Lemma as_matrix_entries t M : consistent t -> as_matrix t = Ok M ->
  samples (length (tj_ts t)) (1 + 3 * tj_dim t + misc_cols t) M /\
  forall k, (k < length (tj_ts t))%nat ->
    at2 M k 0 = nth k (tj_ts t) 0 /\
    (forall i, (i < tj_dim t)%nat -> at2 M k (1 + i) = at2 (tj_ys t) k i /\ at2 M k (1 + tj_dim t + i) = at2 (tj_yds t) k i /\
                                   at2 M k (1 + 2 * tj_dim t + i) = at2 (tj_ydds t) k i) /\
    (forall j, (j < misc_cols t)%nat -> at2 M k (1 + 3 * tj_dim t + j) = misc_at t k j).
Proof.
  intros Ht E. destruct (as_matrix_rows t Ht) as (M' & E' & SM & RM). rewrite E' in E. injection E as ->. split; [exact SM|].
  intros k Hk. unfold at2 at 1 2 4 6 8. rewrite RM by trivial. pose proof Ht as (H1 & H2 & H3 & _).
  pose proof (nth_row _ _ _ k H1 Hk) as L1. pose proof (nth_row _ _ _ k H2 Hk) as L2. pose proof (nth_row _ _ _ k H3 Hk) as L3.
  split; [reflexivity|]. split.
  - intros i Hi. cbn [nth plus]. split; [|split].
    + now rewrite app_nth1 by lia.
    + rewrite app_nth2 by lia. rewrite app_nth1 by lia. unfold at2. f_equal. lia.
    + rewrite app_nth2 by lia. rewrite app_nth2 by lia. rewrite app_nth1 by lia. unfold at2. f_equal. lia.
  - intros j Hj. cbn [nth plus]. rewrite app_nth2 by lia. rewrite app_nth2 by lia. rewrite app_nth2 by lia.
    rewrite <- (misc_row_at t k j Ht Hk Hj). f_equal. lia.
Qed.
Lemma at2_cols n c M a b k i : samples n c M -> (k < n)%nat -> (i < b - a)%nat -> at2 (cols_of M a b) k i = at2 M k (a + i).
Proof.
  intros HM Hk Hi. unfold at2. rewrite (cols_row _ _ _ _ _ k HM Hk). set (r := nth k (mrows M) []).
  rewrite <- (firstn_skipn a r) at 2. destruct (Nat.le_gt_cases a (length r)) as [Ha|Ha].
  - rewrite app_nth2 by (rewrite firstn_length; lia). rewrite firstn_length, Nat.min_l by lia. replace (a + i - a)%nat with i by lia.
    rewrite <- (firstn_skipn (b - a) (skipn a r)) at 2. destruct (Nat.lt_ge_cases i (length (firstn (b - a) (skipn a r)))) as [Hl|Hl].
    + now rewrite app_nth1.
    + rewrite nth_overflow by trivial. rewrite nth_overflow; [reflexivity|]. rewrite app_length. rewrite firstn_length, skipn_length in Hl. rewrite firstn_length, !skipn_length. lia.
  - rewrite !nth_overflow; [reflexivity| |]; rewrite ?app_length, ?firstn_length, ?skipn_length; lia.
Qed.
Lemma from_matrix_entries n d c M : samples n (1 + 3 * d + c) M -> exists t,
  from_matrix M c = Ok t /\ consistent t /\ tj_dim t = d /\ length (tj_ts t) = n /\ tj_dt t = dt_mean (tj_ts t) /\ misc_cols t = c /\
  forall k, (k < n)%nat ->
    nth k (tj_ts t) 0 = at2 M k 0 /\
    (forall i, (i < d)%nat -> at2 (tj_ys t) k i = at2 M k (1 + i) /\ at2 (tj_yds t) k i = at2 M k (1 + d + i) /\ at2 (tj_ydds t) k i = at2 M k (1 + 2 * d + i)) /\
    (forall j, (j < c)%nat -> misc_at t k j = at2 M k (1 + 3 * d + j)).
Proof.
  intros HM. destruct (from_matrix_ok n d c M HM) as (t & E & Ct & D & T & DT & Y1 & Y2 & Y3 & MI). exists t.
  split; [exact E|]. split; [exact Ct|]. split; [exact D|]. pose proof HM as (HC & HN & _). split; [rewrite T; unfold col; now rewrite map_length|].
  split; [congruence|]. split; [unfold misc_cols; rewrite MI; cbn [shape snd cols_of mcols]; rewrite HC; lia|].
  intros k Hk. split; [|split].
  - rewrite T. unfold col. rewrite (nth_indep _ 0 (nth 0 [] 0)) by (rewrite map_length; lia). now rewrite (map_nth (fun r => nth 0 r 0)).
  - intros i Hi. rewrite Y1, Y2, Y3. rewrite !(at2_cols _ _ _ _ _ k i HM Hk) by lia. repeat split; f_equal; lia.
  - intros j Hj. unfold misc_at. rewrite MI. change (nth j (nth k (mrows (cols_of M (3 * d + 1) (1 + 3 * d + c))) []) 0) with (at2 (cols_of M (3 * d + 1) (1 + 3 * d + c)) k j).
    rewrite (at2_cols _ _ _ _ _ k j HM Hk) by lia. f_equal. lia.
Qed.

(** ** data frames *)
Lemma labels_len s n : length (labels_of s n) = n.
Proof. unfold labels_of. now rewrite map_length, seq_length. Qed.
Lemma dataframe_ok t : consistent t -> tj_ts t <> [] -> (forall l, tj_misc t <> Some (V1 l)) -> exists M,
  as_matrix t = Ok M /\
  as_dataframe t = Ok (("t"%string :: labels_of "y" (tj_dim t) ++ labels_of "yd" (tj_dim t) ++ labels_of "ydd" (tj_dim t) ++ labels_of "misc" (misc_cols t))%list, M).
Proof.
  intros Ht Hne Hm. destruct (as_matrix_rows t Ht) as (M & E & SM & _). exists M. split; [exact E|]. unfold as_dataframe.
  assert (Hd : dim_misc t = Ok (misc_cols t)).
  { unfold dim_misc, has_misc, misc_cols. destruct (tj_misc t) as [[l|m]|] eqn:Em; [now destruct (Hm l)| |reflexivity].
    destruct Ht as (_ & _ & _ & H4). destruct (H4 _ Em) as (_ & Hl). cbn in Hl. unfold nrows. cbn [shape snd].
    destruct (Nat.ltb_spec 0 (length (mrows m) * mcols m)) as [|H]; [reflexivity|]. f_equal. destruct (tj_ts t); [contradiction|]. cbn in Hl. rewrite Hl in H. cbn in H. lia. }
  rewrite Hd. cbn [bind]. rewrite E. cbn [bind]. cbn [app length]. rewrite !app_length, !labels_len. destruct SM as (HC & _). rewrite HC.
  destruct (Nat.eqb_spec (S (tj_dim t + (tj_dim t + (tj_dim t + misc_cols t)))) (1 + 3 * tj_dim t + misc_cols t)); [reflexivity|lia].
Qed.
Lemma sapp_inj s a b : String.append s a = String.append s b -> a = b.
Proof. induction s as [|c s IH]; cbn; [trivial|]. intros H. injection H. auto. Qed.
Lemma labels_nodup s n : NoDup (labels_of s n).
Proof.
  unfold labels_of. apply FinFun.Injective_map_NoDup; [|apply seq_NoDup]. intros x y H. apply sapp_inj in H. apply fmt_inj in H; lia.
Qed.
Lemma fmt_first w z : (0 <= z)%Z -> exists c r, fmt w z = String c r /\ is_digit c = true.
Proof.
  intros Hz. pose proof (fmt_digits w z Hz) as D. pose proof (fmt_nonempty w z) as N. destruct (fmt w z) as [|c r]; [contradiction|]. exists c, r. split; [reflexivity|].
  apply D.
Qed.
Lemma nodup_app {A} (a b : list A) : NoDup a -> NoDup b -> (forall x, In x a -> ~ In x b) -> NoDup (a ++ b).
Proof.
  induction a as [|x a IH]; cbn; intros Ha Hb H; [trivial|]. inversion Ha; subst. constructor.
  - intros Hi. apply in_app_or in Hi. destruct Hi as [Hi|Hi]; [contradiction|]. now apply (H x); auto.
  - apply IH; auto.
Qed.
Lemma labels_in s n x : In x (labels_of s n) -> exists c r, x = String.append s (String c r) /\ is_digit c = true.
Proof.
  unfold labels_of. intros H. apply in_map_iff in H. destruct H as (k & <- & _). destruct (fmt_first 0 (Z.of_nat k) ltac:(lia)) as (c & r & E & D).
  exists c, r. now rewrite E.
Qed.
Lemma names_nodup d k : NoDup ("t"%string :: labels_of "y" d ++ labels_of "yd" d ++ labels_of "ydd" d ++ labels_of "misc" k)%list.
Proof.
  assert (C : forall s s' n n' x, In x (labels_of s n) -> In x (labels_of s' n') ->
    exists c r c' r', is_digit c = true /\ is_digit c' = true /\ String.append s (String c r) = String.append s' (String c' r')).
  { intros s s' n n' x H H'. apply labels_in in H, H'. destruct H as (c & r & E & D), H' as (c' & r' & E' & D'). exists c, r, c', r'. repeat split; congruence. }
  assert (Hd : is_digit "d"%char = false) by reflexivity.
  constructor.
  - intros H. repeat (apply in_app_or in H; destruct H as [H|H]); apply labels_in in H; destruct H as (c & r & E & _); cbn in E; congruence.
  - repeat (apply nodup_app; [apply labels_nodup| |]); try apply labels_nodup.
    + intros x H H'. destruct (C _ _ _ _ _ H H') as (c & r & c' & r' & D & D' & E). cbn in E. congruence.
    + intros x H H'. apply in_app_or in H'. destruct H' as [H'|H']; destruct (C _ _ _ _ _ H H') as (c & r & c' & r' & D & D' & E); cbn in E; congruence.
    + intros x H H'. repeat (apply in_app_or in H'; destruct H' as [H'|H']); destruct (C _ _ _ _ _ H H') as (c & r & c' & r' & D & D' & E); cbn in E; congruence.
Qed.

(** ** text files *)
Section Files.
Variable rnd : R -> R.
Lemma map_samples n d m : samples n d m -> samples n d (Mat (mcols m) (map (map rnd) (mrows m))).
Proof.
  intros (C & N & H). split; [trivial|]. cbn. rewrite map_length. split; [trivial|]. intros r Hr. apply in_map_iff in Hr. destruct Hr as (x & <- & Hx).
  rewrite map_length. auto.
Qed.
Lemma map_at2 n d m k i c : samples n d m -> (k < n)%nat -> (i < d)%nat -> at2 (Mat c (map (map rnd) (mrows m))) k i = rnd (at2 m k i).
Proof.
  intros Hm Hk Hi. unfold at2. cbn [mrows]. pose proof (nth_row _ _ _ k Hm Hk) as L. destruct Hm as (_ & N & _).
  rewrite (nth_indep _ [] (map rnd [])) by (rewrite map_length; lia). rewrite (map_nth (map rnd)).
  rewrite (nth_indep _ 0 (rnd 0)) by (rewrite map_length; lia). apply map_nth.
Qed.
Lemma file_roundtrip t : consistent t -> (2 <= length (tj_ts t))%nat -> (1 <= tj_dim t)%nat -> exists file t',
  savetxt rnd t = Ok file /\ loadtxt file (misc_cols t) = Ok t' /\ consistent t' /\ tj_dim t' = tj_dim t /\ length (tj_ts t') = length (tj_ts t) /\
  misc_cols t' = misc_cols t /\ tj_dt t' = dt_mean (tj_ts t') /\
  forall k, (k < length (tj_ts t))%nat ->
    nth k (tj_ts t') 0 = rnd (nth k (tj_ts t) 0) /\
    (forall i, (i < tj_dim t)%nat -> at2 (tj_ys t') k i = rnd (at2 (tj_ys t) k i) /\ at2 (tj_yds t') k i = rnd (at2 (tj_yds t) k i) /\
                                   at2 (tj_ydds t') k i = rnd (at2 (tj_ydds t) k i)) /\
    (forall j, (j < misc_cols t)%nat -> misc_at t' k j = rnd (misc_at t k j)).
Proof.
  intros Ht Hn Hd. destruct (as_matrix_rows t Ht) as (M & E & SM & _). destruct (as_matrix_entries t M Ht E) as (_ & EM).
  unfold savetxt. rewrite E. cbn [bind]. set (F := Mat (mcols M) (map (map rnd) (mrows M))). pose proof (map_samples _ _ _ SM) as SF. fold F in SF.
  destruct (from_matrix_entries _ _ _ _ SF) as (t' & Et & Ct & D & L & DT & MC & En). exists F, t'. split; [reflexivity|]. split.
  { unfold loadtxt, nrows. destruct SF as (FC & FN & _). rewrite FC, FN. destruct (Nat.ltb_spec (length (tj_ts t)) 2); [lia|].
    destruct (Nat.ltb_spec (1 + 3 * tj_dim t + misc_cols t) 2); [lia|]. exact Et. }
  split; [exact Ct|]. split; [exact D|]. split; [exact L|]. split; [exact MC|]. split; [exact DT|].
  intros k Hk. destruct (En k Hk) as (F1 & F2 & F3), (EM k Hk) as (G1 & G2 & G3). split; [|split].
  - rewrite F1, <- G1. apply (map_at2 _ _ _ _ _ _ SM Hk). lia.
  - intros i Hi. destruct (F2 i Hi) as (-> & -> & ->), (G2 i Hi) as (<- & <- & <-). unfold F. rewrite !(map_at2 _ _ _ _ _ _ SM Hk) by lia. auto.
  - intros j Hj. rewrite (F3 j Hj), <- (G3 j Hj). apply (map_at2 _ _ _ _ _ _ SM Hk). lia.
Qed.
End Files.

(** rounding to a multiple of 1e-7, as with the format %1.7f *)
Definition decimals7 (rnd : R -> R) : Prop := forall x, exists z : Z, rnd x = IZR z / 10000000 /\ Rabs (rnd x - x) <= 0.5 / 10000000.
Lemma decimals7_stable rnd x : decimals7 rnd -> rnd (rnd x) = rnd x.
Proof.
  intros H. destruct (H x) as (z & E & _). destruct (H (rnd x)) as (z' & E' & B). rewrite E' in *. rewrite E in *.
  f_equal. f_equal. assert (B' : Rabs (IZR (z' - z)) <= 0.5).
  { rewrite minus_IZR. replace (IZR z' - IZR z) with ((IZR z' / 10000000 - IZR z / 10000000) * 10000000) by field. rewrite Rabs_mult, (Rabs_right 10000000) by lra. lra. }
  rewrite <- abs_IZR in B'. assert (IZR (Z.abs (z' - z)) < 1) by lra. apply lt_IZR in H0. lia.
Qed.
Lemma decimals7_mono rnd x y : decimals7 rnd -> x + 1 / 10000000 < y -> rnd x < rnd y.
Proof. intros H Hxy. destruct (H x) as (_ & _ & B). destruct (H y) as (_ & _ & B'). revert B B'. unfold Rabs. destruct (Rcase_abs (rnd x - x)), (Rcase_abs (rnd y - y)); lra. Qed.
