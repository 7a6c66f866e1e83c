(** Concrete trajectories: cases of the theorems, and counterexamples. *)
From Coq Require Import String SpecFloat.
From Verif Require Import Base BaseLemmas TrajModel TrajSpec TrajProofs TrajProofs2 TrajProofs3 TrajProofs4 TrajProofs5 TrajProofs7.
Open Scope R_scope.

(** three samples of one dimension, with two misc variables *)
Definition ex_t : traj :=
  Traj [0; 1; 2] (Some 1) 1 (Mat 1 [[0]; [1]; [3]]) (Mat 1 [[1]; [1.5]; [2]]) (Mat 1 [[0.5]; [0.5]; [0.5]])
       (Some (V2 (Mat 2 [[7; 8]; [9; 10]; [11; 12]]))).
(** two samples, times from 4 *)
Definition ex_u : traj :=
  Traj [4; 5] (Some 1) 1 (Mat 1 [[3]; [4]]) (Mat 1 [[1]; [1]]) (Mat 1 [[0]; [0]]) (Some (V2 (Mat 2 [[1; 2]; [3; 4]]))).
(** two dimensions *)
Definition ex_w : traj :=
  Traj [0; 1] (Some 1) 2 (Mat 2 [[3; 3]; [4; 4]]) (Mat 2 [[1; 1]; [1; 1]]) (Mat 2 [[0; 0]; [0; 0]]) None.
(** a vector of misc values *)
Definition ex_v : traj :=
  Traj [0; 1; 2] (Some 1) 1 (Mat 1 [[0]; [1]; [3]]) (Mat 1 [[1]; [1.5]; [2]]) (Mat 1 [[0.5]; [0.5]; [0.5]]) (Some (V1 [5; 6; 7])).

Ltac samp := split; [reflexivity|split; [reflexivity|]]; let r := fresh in let H := fresh in intros r H; cbn in H; intuition (subst; reflexivity).
Ltac cons := unfold consistent; cbn [tj_ts tj_dim tj_ys tj_yds tj_ydds tj_misc length]; split; [samp|split; [samp|split; [samp|]]].
Lemma ex_t_ok : consistent ex_t.
Proof. cons. intros a H. injection H as <-. split; [|reflexivity]. exists 3%nat, 2%nat. samp. Qed.
Lemma ex_u_ok : consistent ex_u.
Proof. cons. intros a H. injection H as <-. split; [|reflexivity]. exists 2%nat, 2%nat. samp. Qed.
Lemma ex_w_ok : consistent ex_w.
Proof. cons. discriminate. Qed.
Lemma ex_v_ok : consistent ex_v.
Proof. cons. intros a H. injection H as <-. split; [exact I|reflexivity]. Qed.
Lemma inc2 a b : a < b -> increasing [a; b].
Proof. intros H [|[|i]] [|[|j]] Hij Hj; cbn in *; try lia; trivial. Qed.
Lemma inc3 a b c : a < b -> b < c -> increasing [a; b; c].
Proof. intros H H' [|[|[|i]]] [|[|[|j]]] Hij Hj; cbn in *; try lia; lra. Qed.
Lemma ex_t_inc : increasing (tj_ts ex_t). Proof. apply inc3; lra. Qed.
Lemma ex_u_inc : increasing (tj_ts ex_u). Proof. apply inc2; lra. Qed.
Lemma ex_tu_joinable : joinable ex_t ex_u. Proof. split; reflexivity. Qed.
Lemma ex_t_misc : forall l, tj_misc ex_t <> Some (V1 l). Proof. discriminate. Qed.

(** a failing append leaves an inconsistent trajectory *)
Lemma append_breaks : exists t', append ex_t ex_w = (t', Err ValueError) /\ ~ consistent t'.
Proof. eexists. split; [reflexivity|]. intros ((_ & H & _) & _). cbn in H. discriminate. Qed.
(** cropping with a vector of misc values *)
Lemma crop_breaks : exists t', crop ex_v 0 2 = (t', Err IndexError) /\ ~ consistent t'.
Proof. eexists. split; [reflexivity|]. intros (_ & _ & _ & H). destruct (H _ eq_refl) as (_ & E). cbn in E. discriminate. Qed.
Lemma dataframe_breaks : as_dataframe ex_v = Err IndexError.
Proof. reflexivity. Qed.
(** prepending a trajectory that does not start at zero *)
Lemma prepend_breaks : exists t', prepend ex_t ex_u = (t', Ok tt) /\ ~ increasing (tj_ts t').
Proof.
  destruct (prepend_ok ex_t ex_u 1 ex_t_ok ex_u_ok ex_tu_joinable ltac:(discriminate) ltac:(discriminate) eq_refl) as (t' & E & _ & _ & _ & _ & T).
  exists t'. split; [exact E|]. rewrite T. intros H. apply prepend_increasing in H; [|exact ex_t_inc|exact ex_u_inc|discriminate|discriminate]. cbn in H. lra.
Qed.
(** an interval that includes all samples loses the last one *)
Lemma crop_loses_last : exists t', crop_times ex_t (-1) 10 = (t', Ok tt) /\ tj_ts t' = [0; 1].
Proof.
  destruct (crop_times_rows ex_t (-1) 10 ex_t_ok ex_t_inc ltac:(discriminate) ex_t_misc ltac:(lra) ltac:(cbn; lra) ltac:(cbn; lra)) as (t' & a & b & E & K & _ & Hb & H).
  exists t'. split; [exact E|]. destruct K as (K & _). rewrite K. cbn [ex_t tj_ts length last] in *.
  assert (Ha : a = 0%nat). { destruct (H 0%nat ltac:(lia)) as (_ & H0). cbn [nth] in H0. assert (a <= 0 < b)%nat by (apply H0; split; [lra|lia]). lia. }
  assert (Hb' : (1 < b)%nat). { destruct (H 1%nat ltac:(lia)) as (_ & H0). cbn [nth] in H0. assert (a <= 1 < b)%nat by (apply H0; split; [lra|lia]). lia. }
  assert (b = 2%nat) by lia. subst a b. reflexivity.
Qed.
(** double-precision arange *)
Definition tenth : spec_float := SFdiv 53 1024 (sf_of_nat 1) (sf_of_nat 10).
Lemma arange_three : arange_length 3 tenth = Some 4%Z.
Proof. vm_compute. reflexivity. Qed.
Lemma pad_wrong_length t ts n y : length ts <> n -> pad_rows t ts n y = Err ValueError.
Proof.
  intros H. unfold pad_rows, new_traj. cbn [rows_of]. unfold nrows. cbn [mrows]. rewrite repeat_length. destruct (Nat.eqb_spec (length ts) n); [contradiction|reflexivity].
Qed.
(** padding by one sample in front *)
Lemma pad_front_one : exists t', pad_front ex_t 1 = (t', Err NonFinite).
Proof.
  unfold pad_front. change (y_init ex_t) with (@Ok (list R) [0]). rewrite (padding_eq ex_t 1 [0] 1 ex_t_ok eq_refl eq_refl) by lra. eexists. unfold prepend. cbn. reflexivity.
Qed.
(** two samples: the velocity is wrong *)
Lemma diff_two a b d : d <> 0 -> exists m, diffnc (Mat 1 [[a]; [b]]) (Some d) = Ok m /\ at2 m 0 0 = - a / (2 * d) /\ at2 m 1 0 = - a / (2 * d).
Proof.
  intros H. unfold diffnc. cbn [nrows mrows mcols length Nat.eqb Nat.ltb Nat.leb]. destruct (Req_EM_T d 0); [contradiction|]. eexists. split; [reflexivity|].
  unfold at2. cbn. split; field; exact H.
Qed.
(** crop leaves dt_mean as it was *)
Definition ex_n : traj :=
  Traj [0; 1; 5] (Some 2.5) 1 (Mat 1 [[0]; [1]; [3]]) (Mat 1 [[1]; [1]; [1]]) (Mat 1 [[0]; [0]; [0]]) None.
Lemma ex_n_ok : consistent ex_n.
Proof. cons. discriminate. Qed.
Lemma ex_n_fresh : fresh_dt ex_n.
Proof. unfold fresh_dt. cbn. f_equal. lra. Qed.
Lemma crop_stale : exists t', crop ex_n 0 2 = (t', Ok tt) /\ ~ fresh_dt t'.
Proof. eexists. split; [reflexivity|]. unfold fresh_dt. cbn. intros H. injection H. lra. Qed.
(** times closer than 1e-7 *)
Lemma decimals7_zero rnd x : decimals7 rnd -> Rabs x < 0.5 / 10000000 -> rnd x = 0.
Proof.
  intros H Hx. destruct (H x) as (z & E & B). rewrite E in *. assert (Hz : Rabs (IZR z) < 1).
  { replace (IZR z) with ((IZR z / 10000000 - x + x) * 10000000) by field. rewrite Rabs_mult, (Rabs_right 10000000) by lra.
    pose proof (Rabs_triang (IZR z / 10000000 - x) x). lra. }
  rewrite <- abs_IZR in Hz. apply lt_IZR in Hz. replace z with 0%Z by lia. lra.
Qed.
