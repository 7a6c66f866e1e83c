(** Proofs about trajectories: matrices, data frames and files (C56, C84). *)
From Coq Require Import String.
From Verif Require Import Base BaseLemmas TrajModel TrajSpec TrajProofs.
Open Scope R_scope.

Lemma nth_row n d m k : samples n d m -> (k < n)%nat -> length (nth k (mrows m) []) = d.
Proof. intros (_ & Hn & Hr) Hk. apply Hr, nth_In. lia. Qed.
Lemma samples_eq n d a b : samples n d a -> samples n d b -> (forall k, (k < n)%nat -> nth k (mrows a) [] = nth k (mrows b) []) -> a = b.
Proof.
  intros (A1 & A2 & _) (B1 & B2 & _) H. destruct a as [ca ra], b as [cb rb]; cbn in *. f_equal; [congruence|].
  apply (nth_ext _ _ [] []); [congruence|]. intros k Hk. apply H. lia.
Qed.
Lemma map2_nth {A B C} (f : A -> B -> C) l m k a b c : (k < length l)%nat -> length l = length m -> nth k (map2 f l m) c = f (nth k l a) (nth k m b).
Proof. revert m k. induction l as [|x l IH]; intros [|y m] k Hk Hl; cbn in *; try lia. destruct k; [reflexivity|]. apply IH; lia. Qed.
Lemma map2_len {A B C} (f : A -> B -> C) l m : length l = length m -> length (map2 f l m) = length l.
Proof. revert m. induction l as [|x l IH]; intros [|y m] H; cbn in *; try lia. rewrite IH; lia. Qed.
Lemma stack_rows n d e a b : samples n d a -> samples n e b -> exists m, stack a b = Ok m /\ samples n (d + e) m /\
  forall k, (k < n)%nat -> nth k (mrows m) [] = (nth k (mrows a) [] ++ nth k (mrows b) [])%list.
Proof.
  intros Ha Hb. pose proof Ha as (A1 & A2 & A3). pose proof Hb as (B1 & B2 & B3). unfold stack, nrows. rewrite A2, B2, Nat.eqb_refl.
  assert (L : length (map2 (fun x y : list R => (x ++ y)%list) (mrows a) (mrows b)) = n) by (rewrite map2_len; congruence).
  assert (N : forall k, (k < n)%nat -> nth k (map2 (fun x y : list R => (x ++ y)%list) (mrows a) (mrows b)) [] = (nth k (mrows a) [] ++ nth k (mrows b) [])%list).
  { intros k Hk. apply map2_nth; [lia|congruence]. }
  eexists. split; [reflexivity|]. split; [|exact N]. split; [cbn; congruence|]. split; [exact L|]. cbn. intros r Hr.
  destruct (In_nth _ _ [] Hr) as (k & Hk & <-). rewrite L in Hk. rewrite N by trivial. rewrite app_length, (nth_row n d a k Ha Hk), (nth_row n e b k Hb Hk). reflexivity.
Qed.
Lemma as_col_rows l k : (k < length l)%nat -> nth k (mrows (as_col l)) [] = [nth k l 0].
Proof. intros H. cbn. rewrite (nth_indep _ [] [0]) by (rewrite map_length; trivial). now rewrite (map_nth (fun x => [x])). Qed.

Definition misc_row (t : traj) (k : nat) : list R :=
  match tj_misc t with None => [] | Some (V1 l) => [nth k l 0] | Some (V2 m) => nth k (mrows m) [] end.
Lemma misc_row_len t k : consistent t -> (k < length (tj_ts t))%nat -> length (misc_row t k) = misc_cols t.
Proof.
  intros (_ & _ & _ & H) Hk. unfold misc_row, misc_cols. destruct (tj_misc t) as [[l|m]|]; try reflexivity. destruct (H _ eq_refl) as (Ha & Hl).
  apply array_samples in Ha. cbn in *. rewrite Hl in Ha. eapply nth_row; eassumption.
Qed.
Lemma misc_row_at t k j : consistent t -> (k < length (tj_ts t))%nat -> (j < misc_cols t)%nat -> nth j (misc_row t k) 0 = misc_at t k j.
Proof. intros _ _ Hj. unfold misc_row, misc_at, misc_cols in *. destruct (tj_misc t) as [[l|m]|]; cbn in *; try lia; [|reflexivity]. now destruct j; [|lia]. Qed.

Lemma as_matrix_rows t : consistent t -> exists M, as_matrix t = Ok M /\ samples (length (tj_ts t)) (1 + 3 * tj_dim t + misc_cols t) M /\
  forall k, (k < length (tj_ts t))%nat ->
    nth k (mrows M) [] = (nth k (tj_ts t) 0%R :: nth k (mrows (tj_ys t)) [] ++ nth k (mrows (tj_yds t)) [] ++ nth k (mrows (tj_ydds t)) [] ++ misc_row t k)%list.
Proof.
  intros Ht. pose proof Ht as (H1 & H2 & H3 & H4). unfold as_matrix.
  destruct (stack_rows _ _ _ _ _ (samples_col (tj_ts t)) H1) as (m1 & E1 & S1 & R1). fold (as_col (tj_ts t)) in E1. rewrite E1. cbn [bind].
  destruct (stack_rows _ _ _ _ _ S1 H2) as (m2 & E2 & S2 & R2). rewrite E2. cbn [bind].
  destruct (stack_rows _ _ _ _ _ S2 H3) as (m3 & E3 & S3 & R3). rewrite E3. cbn [bind].
  assert (R : forall k, (k < length (tj_ts t))%nat -> nth k (mrows m3) [] = (nth k (tj_ts t) 0%R :: nth k (mrows (tj_ys t)) [] ++ nth k (mrows (tj_yds t)) [] ++ nth k (mrows (tj_ydds t)) [])%list).
  { intros k Hk. rewrite R3, R2, R1 by trivial. fold (as_col (tj_ts t)). rewrite as_col_rows by trivial. cbn. now rewrite <- !app_assoc. }
  unfold misc_cols, misc_row. destruct (tj_misc t) as [[l|m]|].
  - destruct (H4 _ eq_refl) as (_ & Hl). cbn in Hl. pose proof (samples_col l) as Sl. rewrite Hl in Sl.
    destruct (stack_rows _ _ _ _ _ S3 Sl) as (m4 & E4 & S4 & R4). exists m4. split; [exact E4|]. split; [|].
    + replace (1 + 3 * tj_dim t + snd (shape (V1 l)))%nat with (1 + tj_dim t + tj_dim t + tj_dim t + 1)%nat by (cbn; lia). exact S4.
    + intros k Hk. rewrite R4, R by trivial. fold (as_col l). rewrite as_col_rows by lia. cbn [app]. now rewrite <- !app_assoc.
  - destruct (H4 _ eq_refl) as (Ha & Hl). cbn in Hl. apply array_samples in Ha. rewrite Hl in Ha.
    destruct (stack_rows _ _ _ _ _ S3 Ha) as (m4 & E4 & S4 & R4). exists m4. split; [exact E4|]. split; [|].
    + cbn [shape snd]. replace (1 + 3 * tj_dim t + mcols m)%nat with (1 + tj_dim t + tj_dim t + tj_dim t + mcols m)%nat by lia. exact S4.
    + intros k Hk. rewrite R4, R by trivial. cbn [app]. now rewrite <- !app_assoc.
  - exists m3. split; [reflexivity|]. split; [replace (1 + 3 * tj_dim t + 0)%nat with (1 + tj_dim t + tj_dim t + tj_dim t)%nat by lia; exact S3|].
    intros k Hk. rewrite R by trivial. now rewrite app_nil_r.
Qed.

(** ** matrices with one row per sample, in general *)
Lemma cols_samples n c m a b : samples n c m -> (a <= b)%nat -> (b <= c)%nat -> samples n (b - a) (cols_of m a b).
Proof.
  intros (C & N & H) Hab Hb. split; [cbn; rewrite C; lia|]. cbn. rewrite map_length. split; [trivial|]. intros r Hr. apply in_map_iff in Hr.
  destruct Hr as (x & <- & Hx). rewrite firstn_length, skipn_length, (H x Hx). lia.
Qed.
Lemma cols_row n c m a b k : samples n c m -> (k < n)%nat -> nth k (mrows (cols_of m a b)) [] = firstn (b - a) (skipn a (nth k (mrows m) [])).
Proof.
  intros (C & N & H) Hk. cbn. rewrite (nth_indep _ [] (firstn (b - a) (skipn a []))) by (rewrite map_length; lia).
  exact (map_nth (fun r => firstn (b - a) (skipn a r)) (mrows m) [] k).
Qed.
Lemma from_matrix_ok n d c M : samples n (1 + 3 * d + c) M -> exists t,
  from_matrix M c = Ok t /\ consistent t /\ tj_dim t = d /\ tj_ts t = col 0 (mrows M) /\ tj_dt t = dt_mean (col 0 (mrows M)) /\
  tj_ys t = cols_of M 1 (d + 1) /\ tj_yds t = cols_of M (d + 1) (2 * d + 1) /\ tj_ydds t = cols_of M (2 * d + 1) (3 * d + 1) /\
  tj_misc t = Some (V2 (cols_of M (3 * d + 1) (1 + 3 * d + c))).
Proof.
  intros HM. pose proof HM as (C & N & H). unfold from_matrix. rewrite C. destruct (Nat.eqb_spec (1 + 3 * d + c) 0); [lia|].
  destruct (Nat.ltb_spec (1 + 3 * d + c - 1) c); [lia|]. replace ((1 + 3 * d + c - 1 - c) / 3)%nat with d.
  2: { replace (1 + 3 * d + c - 1 - c)%nat with (d * 3)%nat by lia. now rewrite Nat.div_mul. }
  rewrite Nat.mul_1_l. assert (L : length (col 0 (mrows M)) = n) by (unfold col; now rewrite map_length).
  pose proof (cols_samples _ _ _ 1 (d + 1) HM ltac:(lia) ltac:(lia)) as S1. pose proof (cols_samples _ _ _ (d + 1) (2 * d + 1) HM ltac:(lia) ltac:(lia)) as S2.
  pose proof (cols_samples _ _ _ (2 * d + 1) (3 * d + 1) HM ltac:(lia) ltac:(lia)) as S3. pose proof (cols_samples _ _ _ (3 * d + 1) (1 + 3 * d + c) HM ltac:(lia) ltac:(lia)) as S4.
  replace (d + 1 - 1)%nat with d in S1 by lia. replace (2 * d + 1 - (d + 1))%nat with d in S2 by lia. replace (3 * d + 1 - (2 * d + 1))%nat with d in S3 by lia.
  replace (1 + 3 * d + c - (3 * d + 1))%nat with c in S4 by lia.
  set (y := cols_of M 1 (d + 1)) in *. set (yd := cols_of M (d + 1) (2 * d + 1)) in *. set (ydd := cols_of M (2 * d + 1) (3 * d + 1)) in *. set (mi := cols_of M (3 * d + 1) (1 + 3 * d + c)) in *.
  unfold new_traj. cbn [rows_of]. destruct S1 as (C1 & N1 & H1), S2 as (C2 & N2 & H2), S3 as (C3 & N3 & H3), S4 as (C4 & N4 & H4).
  unfold nrows. rewrite L, N1, Nat.eqb_refl. cbn [column bind derivative]. unfold same_shape, nrows. rewrite N1, N2, C1, C2, N3, C3, !Nat.eqb_refl. cbn [andb bind].
  rewrite N4, Nat.eqb_refl. cbn [bind]. eexists. split; [reflexivity|]. cbn. split; [|now repeat split]. unfold consistent. cbn. rewrite L.
  split; [now split; [congruence|split]|]. split; [now split; [congruence|split]|]. split; [now split; [congruence|split]|].
  intros a Ha. injection Ha as <-. cbn. split; [|trivial]. exists n, c. now split; [|split].
Qed.
Lemma skip_app {A} n (a b : list A) : length a = n -> skipn n (a ++ b) = b.
Proof. intros <-. rewrite skipn_app, skipn_all, Nat.sub_diag. reflexivity. Qed.
Lemma first_app {A} n (a b : list A) : length a = n -> firstn n (a ++ b) = a.
Proof. intros <-. rewrite firstn_app, firstn_all, Nat.sub_diag, firstn_O, app_nil_r. reflexivity. Qed.

Lemma matrix_roundtrip t : consistent t -> exists M t', as_matrix t = Ok M /\ from_matrix M (misc_cols t) = Ok t' /\ consistent t' /\
  tj_ts t' = tj_ts t /\ tj_dim t' = tj_dim t /\ tj_ys t' = tj_ys t /\ tj_yds t' = tj_yds t /\ tj_ydds t' = tj_ydds t /\ tj_dt t' = dt_mean (tj_ts t) /\
  misc_cols t' = misc_cols t /\ (forall k j, (k < length (tj_ts t))%nat -> (j < misc_cols t)%nat -> misc_at t' k j = misc_at t k j) /\
  (forall m, tj_misc t = Some (V2 m) -> tj_misc t' = tj_misc t).
Proof.
  intros Ht. destruct (as_matrix_rows t Ht) as (M & E & SM & RM). pose proof Ht as (H1 & H2 & H3 & H4).
  set (n := length (tj_ts t)) in *. set (d := tj_dim t) in *. set (c := misc_cols t) in *.
  destruct (from_matrix_ok n d c M SM) as (t' & Et & Ct & D & T & DT & Y1 & Y2 & Y3 & MI).
  assert (ET : col 0 (mrows M) = tj_ts t).
  { unfold col. pose proof SM as (_ & N & _). apply (nth_ext _ _ 0 0); [rewrite map_length; exact N|]. intros k Hk. rewrite map_length in Hk. rewrite N in Hk.
    rewrite (nth_indep _ 0 (nth 0 [] 0)) by (rewrite map_length; lia). rewrite (map_nth (fun r => nth 0 r 0)), RM by trivial. reflexivity. }
  rewrite ET in T, DT.
  assert (A : forall k, (k < n)%nat -> length (nth k (mrows (tj_ys t)) []) = d /\ length (nth k (mrows (tj_yds t)) []) = d /\ length (nth k (mrows (tj_ydds t)) []) = d).
  { intros k Hk. split; [|split]; eapply nth_row; eassumption. }
  assert (Q1 : cols_of M 1 (d + 1) = tj_ys t).
  { apply (samples_eq n d); [|exact H1|].
    - replace d with (d + 1 - 1)%nat at 1 by lia. eapply cols_samples; [exact SM|lia|lia].
    - intros k Hk. rewrite (cols_row _ _ _ _ _ k SM Hk), RM by trivial. destruct (A k Hk) as (A1 & A2 & A3). cbn [skipn]. replace (d + 1 - 1)%nat with d by lia. now apply first_app. }
  assert (K : forall k a (x : list R), skipn (a + 1) (nth k (tj_ts t) 0 :: x) = skipn a x). { intros k a x. rewrite Nat.add_1_r. reflexivity. }
  assert (Q2 : cols_of M (d + 1) (2 * d + 1) = tj_yds t).
  { apply (samples_eq n d); [|exact H2|].
    - replace d with (2 * d + 1 - (d + 1))%nat at 1 by lia. eapply cols_samples; [exact SM|lia|lia].
    - intros k Hk. rewrite (cols_row _ _ _ _ _ k SM Hk), RM by trivial. destruct (A k Hk) as (A1 & A2 & A3).
      rewrite K, (skip_app d) by trivial. replace (2 * d + 1 - (d + 1))%nat with d by lia. now apply first_app. }
  assert (Q3 : cols_of M (2 * d + 1) (3 * d + 1) = tj_ydds t).
  { apply (samples_eq n d); [|exact H3|].
    - replace d with (3 * d + 1 - (2 * d + 1))%nat at 1 by lia. eapply cols_samples; [exact SM|lia|lia].
    - intros k Hk. rewrite (cols_row _ _ _ _ _ k SM Hk), RM by trivial. destruct (A k Hk) as (A1 & A2 & A3).
      rewrite K, app_assoc, (skip_app (2 * d)) by (rewrite app_length; lia). replace (3 * d + 1 - (2 * d + 1))%nat with d by lia. now apply first_app. }
  assert (Q4 : samples n c (cols_of M (3 * d + 1) (1 + 3 * d + c)) /\ forall k, (k < n)%nat -> nth k (mrows (cols_of M (3 * d + 1) (1 + 3 * d + c))) [] = misc_row t k).
  { split; [replace c with (1 + 3 * d + c - (3 * d + 1))%nat at 1 by lia; eapply cols_samples; [exact SM|lia|lia]|].
    intros k Hk. rewrite (cols_row _ _ _ _ _ k SM Hk), RM by trivial. destruct (A k Hk) as (A1 & A2 & A3).
    rewrite K. rewrite (app_assoc (nth k (mrows (tj_yds t)) [])), (app_assoc (nth k (mrows (tj_ys t)) [])), (skip_app (3 * d)) by (rewrite !app_length; lia).
    replace (1 + 3 * d + c - (3 * d + 1))%nat with c by lia. apply firstn_all2. unfold n in Hk. rewrite misc_row_len by trivial. unfold c. lia. }
  destruct Q4 as [Q4 Q5]. rewrite Q1 in Y1. rewrite Q2 in Y2. rewrite Q3 in Y3.
  exists M, t'. split; [exact E|]. split; [exact Et|]. split; [exact Ct|]. split; [exact T|]. split; [exact D|]. split; [exact Y1|]. split; [exact Y2|]. split; [exact Y3|].
  split; [exact DT|]. split; [unfold misc_cols at 1; rewrite MI; cbn [shape snd]; apply Q4|]. split.
  - intros k j Hk Hj. unfold misc_at at 1. rewrite MI. rewrite Q5 by trivial. now apply misc_row_at.
  - intros m Hm. rewrite MI, Hm. do 2 f_equal. destruct (H4 _ Hm) as (Ha & Hl). apply array_samples in Ha. cbn in Hl. fold n in Hl. rewrite Hl in Ha.
    assert (Hc : mcols m = c) by (unfold c, misc_cols; now rewrite Hm). rewrite Hc in Ha.
    apply (samples_eq n c); [exact Q4|exact Ha|]. intros k Hk. rewrite Q5 by trivial. unfold misc_row. now rewrite Hm.
Qed.
