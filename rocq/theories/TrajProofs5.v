(** Proofs about trajectories: padding and numerical differentiation (C59, C60). *)
From Verif Require Import Base BaseLemmas TrajModel TrajSpec TrajProofs TrajProofs2 TrajProofs4.
Open Scope R_scope.

(** ** padding *)
Lemma padding_eq t n y d : consistent t -> length y = tj_dim t -> tj_dt t = Some d -> d <> 0 ->
  padding t n (Ok y) = Ok (Traj (map (fun i => INR i * d) (seq 0 n)) (dt_mean (map (fun i => INR i * d) (seq 0 n))) (tj_dim t) (Mat (tj_dim t) (repeat y n))
                                (Mat (tj_dim t) (repeat (repeat 0 (tj_dim t)) n)) (Mat (tj_dim t) (repeat (repeat 0 (tj_dim t)) n)) None).
Proof.
  intros ((C1 & _) & (C2 & _) & (C3 & _) & _) Hy Hd Hd0. unfold padding, pad_rows, arange. rewrite Hd. destruct (Req_EM_T d 0); [contradiction|]. cbn [bind].
  unfold new_traj. cbn [rows_of]. unfold nrows. cbn [mrows]. rewrite repeat_length, map_length, seq_length, Nat.eqb_refl. cbn [column bind derivative].
  unfold same_shape, nrows. cbn [mrows mcols]. rewrite !repeat_length, C1, C2, C3, !Nat.eqb_refl. reflexivity.
Qed.
Lemma arange_equi d n : equidistant d (map (fun i => INR i * d) (seq 0 n)).
Proof. intros i Hi. rewrite map_length, seq_length in Hi. rewrite !nth_map_seq by lia. rewrite S_INR. lra. Qed.
Lemma pad_parts t u : consistent t -> tj_ts t <> [] -> tj_dim u = tj_dim t -> tj_misc u = None -> joinable t u.
Proof. intros _ _ Hd Hm. split; [congruence|]. rewrite Hm. now destruct (tj_misc t) as [[]|]. Qed.
Lemma row_ok t i : consistent t -> (i < length (tj_ts t))%nat -> nth_res (mrows (tj_ys t)) i = Ok (nth i (mrows (tj_ys t)) []) /\ length (nth i (mrows (tj_ys t)) []) = tj_dim t.
Proof.
  intros (H1 & _) Hi. split; [|exact (nth_row _ _ _ _ H1 Hi)]. destruct H1 as (_ & N & _). apply nth_res_ok. lia.
Qed.
Lemma padded_consistent t n y d : length y = tj_dim t ->
  consistent (Traj (map (fun i => INR i * d) (seq 0 n)) (dt_mean (map (fun i => INR i * d) (seq 0 n))) (tj_dim t) (Mat (tj_dim t) (repeat y n))
                                (Mat (tj_dim t) (repeat (repeat 0 (tj_dim t)) n)) (Mat (tj_dim t) (repeat (repeat 0 (tj_dim t)) n)) None).
Proof.
  intros Hy. unfold consistent. cbn [tj_ts tj_dim tj_ys tj_yds tj_ydds tj_misc]. rewrite map_length, seq_length.
  split; [now apply repeat_samples|]. split; [apply repeat_samples, repeat_length|]. split; [apply repeat_samples, repeat_length|]. discriminate.
Qed.
Lemma pad_end_ok t n d : consistent t -> tj_ts t <> [] -> (1 <= n)%nat -> tj_dt t = Some d -> d <> 0 -> exists t',
  pad_end t n = (t', Ok tt) /\ consistent t' /\ tj_dim t' = tj_dim t /\
  tj_ts t' = (tj_ts t ++ map (fun i => last (tj_ts t) 0 + INR (S i) * d) (seq 0 n))%list /\
  mrows (tj_ys t') = (mrows (tj_ys t) ++ repeat (last (mrows (tj_ys t)) []) n)%list /\
  mrows (tj_yds t') = (mrows (tj_yds t) ++ repeat (repeat 0 (tj_dim t)) n)%list /\
  mrows (tj_ydds t') = (mrows (tj_ydds t) ++ repeat (repeat 0 (tj_dim t)) n)%list /\ tj_misc t' = None.
Proof.
  intros Ht Hne Hn Hd Hd0. unfold pad_end, y_final. assert (L : length (mrows (tj_ys t)) = length (tj_ts t)) by apply Ht.
  assert (Hl : (length (tj_ts t) - 1 < length (tj_ts t))%nat) by (destruct (tj_ts t); [contradiction|cbn; lia]).
  destruct (row_ok t (length (tj_ts t) - 1) Ht Hl) as (E & Ly). rewrite L, E, (padding_eq t n _ d Ht Ly Hd Hd0).
  match goal with |- context [append t ?x] => set (u := x) end.
  assert (Cu : consistent u) by now apply padded_consistent. assert (Nu : tj_ts u <> []) by (destruct n; [lia|discriminate]).
  destruct (append_ok t u d Ht Cu (pad_parts t u Ht Hne eq_refl eq_refl) Hne Nu Hd) as (t' & Ea & Ct & (J1 & J2 & J3 & J4) & D & DT & T).
  exists t'. split; [exact Ea|]. split; [exact Ct|]. split; [exact D|]. split.
  { rewrite T. f_equal. unfold shifted, u. cbn [tj_ts]. rewrite map_map. apply map_ext_in. intros i Hi. apply in_seq in Hi. rewrite nth_map_seq by lia.
    change (INR 0) with 0. rewrite S_INR. lra. }
  split; [rewrite J1; unfold u; cbn [tj_ys mrows]; f_equal; f_equal|].
  { rewrite <- L. assert (G : forall l : list (list R), nth (length l - 1) l [] = last l []); [|apply G].
    induction l as [|x [|z l] IH]; [reflexivity|reflexivity|]. change (last (x :: z :: l) []) with (last (z :: l) []). rewrite <- IH. cbn [length]. rewrite !Nat.sub_succ, !Nat.sub_0_r. reflexivity. }
  split; [exact J2|]. split; [exact J3|]. rewrite J4. unfold u. cbn [tj_misc]. now destruct (tj_misc t) as [[]|].
Qed.
Lemma pad_front_ok t n d : consistent t -> tj_ts t <> [] -> (2 <= n)%nat -> tj_dt t = Some d -> d <> 0 -> exists t',
  pad_front t n = (t', Ok tt) /\ consistent t' /\ tj_dim t' = tj_dim t /\
  tj_ts t' = (map (fun i => INR i * d) (seq 0 n) ++ shifted (INR n * d - nth 0 (tj_ts t) 0) (tj_ts t))%list /\
  mrows (tj_ys t') = (repeat (nth 0 (mrows (tj_ys t)) []) n ++ mrows (tj_ys t))%list /\
  mrows (tj_yds t') = (repeat (repeat 0 (tj_dim t)) n ++ mrows (tj_yds t))%list /\
  mrows (tj_ydds t') = (repeat (repeat 0 (tj_dim t)) n ++ mrows (tj_ydds t))%list /\ tj_misc t' = None.
Proof.
  intros Ht Hne Hn Hd Hd0. unfold pad_front, y_init. assert (Hl : (0 < length (tj_ts t))%nat) by (destruct (tj_ts t); [contradiction|cbn; lia]).
  destruct (row_ok t 0 Ht Hl) as (E & Ly). rewrite E, (padding_eq t n _ d Ht Ly Hd Hd0).
  match goal with |- context [prepend t ?x] => set (u := x) end.
  assert (Cu : consistent u) by now apply padded_consistent. assert (Nu : tj_ts u <> []) by (destruct n; [lia|discriminate]).
  assert (Du : tj_dt u = Some d). { unfold u. cbn [tj_dt]. apply dt_mean_equi; [apply arange_equi|]. now rewrite map_length, seq_length. }
  destruct (prepend_ok t u d Ht Cu (pad_parts t u Ht Hne eq_refl eq_refl) Hne Nu Du) as (t' & Ea & Ct & (J1 & J2 & J3 & J4) & D & DT & T).
  exists t'. split; [exact Ea|]. split; [exact Ct|]. split; [exact D|]. split.
  { rewrite T. unfold u. cbn [tj_ts]. f_equal. unfold shifted. apply map_ext. intros x. rewrite last_nth', map_length, seq_length, !nth_map_seq by lia.
    replace (INR n) with (INR (n - 1) + 1) by (rewrite minus_INR by lia; cbn; lra). change (INR 0) with 0. lra. }
  split; [exact J1|]. split; [exact J2|]. split; [exact J3|]. rewrite J4. unfold u. cbn [tj_misc]. reflexivity.
Qed.

(** ** numerical differentiation *)
Lemma sumn_delta n p x : (p < n)%nat -> sumn n (fun j => if Nat.eqb j p then x else 0) = x.
Proof.
  induction n as [|n IH]; intros H; [lia|]. cbn [sumn]. destruct (Nat.eqb_spec n p) as [->|Hne].
  - rewrite sumn_zero; [lra|]. intros i Hi. destruct (Nat.eqb_spec i p); [lia|reflexivity].
  - rewrite IH by lia. lra.
Qed.
Lemma conv3 a v0 v1 v2 k : (1 <= k)%nat -> (S k < length a)%nat ->
  nth (S k) (convolve a [v0; v1; v2]) 0 = nth (S k) a 0 * v0 + nth k a 0 * v1 + nth (k - 1) a 0 * v2.
Proof.
  intros Hk Hl. unfold convolve. rewrite nth_map_seq by (cbn [length]; lia).
  rewrite <- (sumn_delta (length a) (S k) (nth (S k) a 0 * v0)) by lia. rewrite <- (sumn_delta (length a) k (nth k a 0 * v1)) by lia.
  rewrite <- (sumn_delta (length a) (k - 1) (nth (k - 1) a 0 * v2)) by lia. rewrite <- !sumn_plus. apply sumn_ext. intros j Hj.
  destruct (Nat.leb_spec j (S k)) as [H|H].
  - destruct (Nat.eqb_spec j (S k)) as [->|N1].
    + destruct (Nat.eqb_spec (S k) k); [lia|]. destruct (Nat.eqb_spec (S k) (k - 1)); [lia|]. rewrite Nat.sub_diag. cbn [nth]. lra.
    + destruct (Nat.eqb_spec j k) as [->|N2].
      * destruct (Nat.eqb_spec k (k - 1)); [lia|]. replace (S k - k)%nat with 1%nat by lia. cbn [nth]. lra.
      * destruct (Nat.eqb_spec j (k - 1)) as [->|N3].
        -- replace (S k - (k - 1))%nat with 2%nat by lia. cbn [nth]. lra.
        -- rewrite (nth_overflow [v0; v1; v2]) by (cbn [length]; lia). lra.
  - destruct (Nat.eqb_spec j (S k)); [lia|]. destruct (Nat.eqb_spec j k); [lia|]. destruct (Nat.eqb_spec j (k - 1)); [lia|]. lra.
Qed.
Lemma nth_cut {A} (l : list A) a b k d : (k < b)%nat -> nth k (firstn b (skipn a l)) d = nth (a + k) l d.
Proof.
  intros H. assert (F : forall (l : list A) b k, (k < b)%nat -> nth k (firstn b l) d = nth k l d).
  { clear. induction l as [|x l IH]; intros [|b] [|k] H; cbn; try reflexivity; try lia. apply IH. lia. }
  rewrite F by trivial. clear. revert l k. induction a as [|a IH]; intros l k; [reflexivity|]. destruct l as [|x l]; [now destruct k|]. apply IH.
Qed.
Lemma diffnc_entries n c m d : samples n c m -> (3 <= n)%nat -> d <> 0 -> exists m', diffnc m (Some d) = Ok m' /\ samples n c m' /\
  forall i, (i < c)%nat ->
    (forall k, (1 <= k)%nat -> (S k < n)%nat -> at2 m' k i = (at2 m (S k) i - at2 m (k - 1) i) / (2 * d)) /\
    at2 m' 0 i = at2 m' 1 i /\ at2 m' (n - 1) i = at2 m' (n - 2) i.
Proof.
  intros Hm Hn Hd. destruct (diffnc m (Some d)) as [m'|e] eqn:E.
  2: { exfalso. unfold diffnc, nrows in E. destruct Hm as (_ & N & _). rewrite N in E. destruct (Nat.eqb_spec n 0); [lia|]. destruct (Nat.ltb_spec n 2); [lia|]. destruct (Req_EM_T d 0); [contradiction|discriminate]. }
  exists m'. split; [reflexivity|]. split; [exact (diffnc_samples _ _ _ _ _ Hm E)|]. intros i Hi.
  pose proof Hm as (C & N & _). unfold diffnc, nrows in E. rewrite N, C in E. destruct (Nat.eqb_spec n 0); [lia|]. destruct (Nat.ltb_spec n 2); [lia|].
  destruct (Req_EM_T d 0); [contradiction|]. apply ok_inj in E. subst m'.
  set (xs2 := map _ (seq 0 (n + 2))). set (xs := firstn n (skipn 1 xs2)).
  assert (Lx : length xs = n) by (unfold xs, xs2; rewrite firstn_length, skipn_length, map_length, seq_length; lia).
  set (xs' := set_nth xs 0 (nth 1 xs [])). assert (Lx' : length xs' = n) by (unfold xs'; now rewrite set_nth_length).
  assert (X : forall k, (1 <= k)%nat -> (S k < n)%nat -> nth i (nth k xs []) 0 = (at2 m (S k) i - at2 m (k - 1) i) / (2 * d)).
  { intros k Hk1 Hk2. unfold xs. rewrite nth_cut by lia. unfold xs2. rewrite nth_map_seq by lia. rewrite map_map, nth_map_seq by trivial.
    cbn [map plus]. rewrite conv3; [|lia|unfold col; rewrite map_length; lia].
    assert (G : forall q, (q < n)%nat -> nth q (col i (mrows m)) 0 = at2 m q i).
    { intros q Hq. unfold col, at2. rewrite (nth_indep _ 0 (nth i [] 0)) by (rewrite map_length; lia). now rewrite (map_nth (fun r => nth i r 0)). }
    rewrite !G by lia. field. exact Hd. }
  unfold at2 at 1 4 5 6 7. cbn [mrows]. 
  assert (S0 : forall k, (1 <= k)%nat -> (S k < n)%nat -> nth k (set_nth xs' (n - 1) (nth (n - 2) xs' [])) [] = nth k xs []).
  { intros k H1 H2. rewrite nth_set_nth_neq by lia. unfold xs'. now rewrite nth_set_nth_neq by lia. }
  split; [|split].
  - intros k H1 H2. rewrite S0 by trivial. now apply X.
  - rewrite (S0 1%nat) by lia. rewrite nth_set_nth_neq by lia. unfold xs'. now rewrite nth_set_nth_eq by lia.
  - rewrite (S0 (n - 2)%nat) by lia. rewrite nth_set_nth_eq by lia. unfold xs'. now rewrite nth_set_nth_neq by lia.
Qed.
