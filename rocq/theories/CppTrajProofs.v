(** Proofs about the files exchanged between Python and C++ (C99). *)
From Coq Require Import String.
From Verif Require Import Base BaseLemmas FaModel FaProofs2 TrajModel TrajSpec TrajProofs TrajProofs2 TrajProofs3 TrajProofs4.
From Verif Require Import CppTrajModel CppTrajSpec.
Open Scope R_scope.

Notation text_of M := (map (fun r => Line (map Some r) false) (mrows M)).

(** ** reading *)
Lemma read_words_ok d r : r <> [] -> read_words d (map Some r) false = Ok (r, Some (last r 0)).
Proof.
  intros H. revert d. induction r as [|x r IH]; [contradiction|]. intros d. cbn [map read_words]. destruct r as [|y r]; [reflexivity|].
  cbn [map]. change (Some y :: map Some r) with (map Some (y :: r)). rewrite IH by discriminate. reflexivity.
Qed.
Lemma read_lines_ok rows d : Forall (fun r => r <> []) rows -> read_lines d (map (fun r => Line (map Some r) false) rows) = Ok (List.concat rows).
Proof.
  intros H. revert d. induction H as [|r rows Hr _ IH]; intros d; [reflexivity|]. cbn [map read_lines words blank]. rewrite read_words_ok by trivial. cbn [bind].
  rewrite IH. reflexivity.
Qed.
Lemma samples_forall n c M : samples n c M -> Forall (fun r => length r = c) (mrows M).
Proof. intros (_ & _ & H). now apply Forall_forall. Qed.
Lemma concat_len c rows : Forall (fun r : list R => length r = c) rows -> length (List.concat rows) = (length rows * c)%nat.
Proof. induction 1 as [|r rows Hr _ IH]; [reflexivity|]. cbn. rewrite app_length, IH. lia. Qed.
Lemma load_ok n c M : samples n c M -> (1 <= n)%nat -> (1 <= c)%nat -> c_load (text_of M) = Ok M.
Proof.
  intros HM Hn Hc. pose proof (samples_forall _ _ _ HM) as HF. pose proof HM as (C & L & _). unfold c_load. rewrite read_lines_ok.
  2: { apply Forall_forall. intros r Hr E. rewrite Forall_forall in HF. specialize (HF r Hr). rewrite E in HF. cbn in HF. lia. }
  cbn [bind]. rewrite map_length, L. destruct (Nat.eqb_spec n 0); [lia|]. cbn [must negb bind]. rewrite (concat_len c), L by trivial.
  rewrite Nat.mul_comm, Nat.div_mul by lia. f_equal. destruct M as [cm rm]. cbn in *. subst cm n. now rewrite chunks_concat.
Qed.
Lemma table_ok n c M : samples n c M -> (1 <= n)%nat -> (1 <= c)%nat -> py_table (text_of M) = Ok M.
Proof.
  intros HM Hn Hc. pose proof (samples_forall _ _ _ HM) as HF. pose proof HM as (C & L & _). unfold py_table.
  assert (F : filter full (text_of M) = text_of M).
  { clear L. revert HF. induction (mrows M) as [|r rows IH]; [reflexivity|]. intros HF. inversion_clear HF as [|? ? Hr HF']. cbn [map filter].
    destruct r as [|x r]; [cbn in Hr; lia|]. cbn [full words map]. now rewrite IH. }
  rewrite F. assert (E : mapM (fun l => mapM number (words l)) (text_of M) = Ok (mrows M)).
  { clear. induction (mrows M) as [|r rows IH]; [reflexivity|]. cbn [map mapM words].
    assert (E : mapM number (map Some r) = Ok r). { induction r as [|x r IHr]; [reflexivity|]. cbn. now rewrite IHr. }
    rewrite E. cbn [bind]. now rewrite IH. }
  rewrite E. cbn [bind]. destruct M as [cm rm]. cbn [mcols mrows] in *. subst cm. destruct rm as [|r rm]; [cbn in L; lia|].
  inversion_clear HF as [|? ? Hr HF']. rewrite Hr. replace (forallb _ (r :: rm)) with true; [reflexivity|]. symmetry. apply forallb_forall. intros x Hx. apply Nat.eqb_eq.
  destruct Hx as [<-|Hx]; [trivial|]. rewrite Forall_forall in HF'. auto.
Qed.

(** ** splitting the columns *)
Lemma block_ok n c M a k : samples n c M -> (a + k <= c)%nat -> exists m, c_block M a k = Ok m /\ samples n k m /\
  forall q i, (q < n)%nat -> (i < k)%nat -> at2 m q i = at2 M q (a + i).
Proof.
  intros HM H. pose proof HM as (C & L & HR). unfold c_block. rewrite C. destruct (Nat.leb_spec (a + k) c); [|lia]. cbn [must bind]. eexists. split; [reflexivity|]. split.
  - split; [reflexivity|]. cbn [mrows]. rewrite map_length. split; [trivial|]. intros r Hr. apply in_map_iff in Hr. destruct Hr as (x & <- & Hx).
    rewrite firstn_length, skipn_length. specialize (HR _ Hx). lia.
  - intros q i Hq Hi. replace (Mat k (map (fun r => firstn k (skipn a r)) (mrows M))) with (cols_of M a (a + k)); [apply (at2_cols n c); trivial; lia|].
    unfold cols_of. rewrite C. rewrite Nat.min_l by lia. replace (a + k - a)%nat with k by lia. reflexivity.
Qed.
Lemma at2_ext n d a b : samples n d a -> samples n d b -> (forall k i, (k < n)%nat -> (i < d)%nat -> at2 a k i = at2 b k i) -> a = b.
Proof.
  intros Ha Hb H. apply (samples_eq n d); trivial. intros k Hk. apply (nth_ext _ _ 0 0).
  - rewrite (nth_row n d a k Ha Hk), (nth_row n d b k Hb Hk). reflexivity.
  - intros i Hi. rewrite (nth_row n d a k Ha Hk) in Hi. now apply H.
Qed.
Lemma new_ok n d k ts ys yds ydds misc : length ts = n -> samples n d ys -> samples n d yds -> samples n d ydds -> samples n k misc ->
  exists c, c_new ts ys yds ydds misc = Ok c /\ c_consistent n d k c /\ ct_ts c = ts /\ ct_ys c = ys /\ ct_yds c = yds /\ ct_ydds c = ydds /\ ct_misc c = misc.
Proof.
  intros HT (A1 & A2 & A3) (B1 & B2 & B3) (D1 & D2 & D3) HM. pose proof HM as (M1 & M2 & M3). unfold c_new, nrows. rewrite HT, A2, B2, D2, A1, B1, D1, !Nat.eqb_refl. cbn [must bind].
  assert (E : (if Nat.eqb (mcols misc) 0 then Mat 0 (repeat [] n) else misc) = misc).
  { destruct (Nat.eqb_spec (mcols misc) 0) as [Z|]; [|reflexivity]. apply (at2_ext n 0).
    - now apply repeat_samples.
    - rewrite <- M1, Z in HM. exact HM.
    - intros; lia. }
  rewrite E, M2, Nat.eqb_refl. cbn [must bind]. eexists. split; [reflexivity|]. unfold c_consistent, samples. cbn. tauto.
Qed.
Lemma new_no_misc n d ts ys yds ydds : length ts = n -> samples n d ys -> samples n d yds -> samples n d ydds ->
  exists c, c_new ts ys yds ydds no_misc = Ok c /\ c_consistent n d 0 c /\ ct_ts c = ts /\ ct_ys c = ys /\ ct_yds c = yds /\ ct_ydds c = ydds.
Proof.
  intros HT A B D. destruct (new_ok n d 0 ts ys yds ydds (Mat 0 (repeat [] n)) HT A B D) as (c & E & Cc & H). { now apply repeat_samples. }
  exists c. split; [|tauto]. unfold c_new in *. cbn [no_misc mcols Nat.eqb] in *. now rewrite HT in E |- *.
Qed.
(** a table with r < 3 columns more than needed *)
Lemma c_read_gen n d m r M : samples n (1 + 3 * d + m + r) M -> (1 <= n)%nat -> (r < 3)%nat -> exists c,
  c_read (text_of M) m = Ok c /\ c_consistent n d m c /\
  forall q, (q < n)%nat ->
    nth q (ct_ts c) 0 = at2 M q 0 /\
    (forall i, (i < d)%nat -> at2 (ct_ys c) q i = at2 M q (1 + i) /\ at2 (ct_yds c) q i = at2 M q (1 + d + i) /\ at2 (ct_ydds c) q i = at2 M q (1 + 2 * d + i)) /\
    (forall j, (j < m)%nat -> at2 (ct_misc c) q j = at2 M q (1 + 3 * d + j)).
Proof.
  intros HM Hn Hr. unfold c_read. rewrite (load_ok _ _ _ HM) by lia. cbn [bind]. pose proof HM as (C & _). rewrite C.
  destruct (Nat.eqb_spec (1 + 3 * d + m + r) 0); [lia|]. destruct (Nat.ltb_spec (1 + 3 * d + m + r - 1) m); [lia|].
  replace ((1 + 3 * d + m + r - 1 - m) / 3)%nat with d by (replace (1 + 3 * d + m + r - 1 - m)%nat with (r + d * 3)%nat by lia; rewrite Nat.div_add, Nat.div_small by lia; lia).
  destruct (block_ok _ _ M 0 1 HM ltac:(lia)) as (b0 & E0 & S0 & A0). rewrite E0. cbn [bind].
  destruct (block_ok _ _ M (1 + 0 * d) d HM ltac:(lia)) as (b1 & E1 & S1 & A1). rewrite E1. cbn [bind].
  destruct (block_ok _ _ M (1 + 1 * d) d HM ltac:(lia)) as (b2 & E2 & S2 & A2). rewrite E2. cbn [bind].
  destruct (block_ok _ _ M (1 + 2 * d) d HM ltac:(lia)) as (b3 & E3 & S3 & A3). rewrite E3. cbn [bind].
  destruct (block_ok _ _ M (1 + 3 * d) m HM ltac:(lia)) as (b4 & E4 & S4 & A4). rewrite E4. cbn [bind].
  assert (L0 : length (col 0 (mrows b0)) = n) by (unfold col; rewrite map_length; apply S0).
  destruct (new_ok n d m _ _ _ _ _ L0 S1 S2 S3 S4) as (c & Ec & Cc & F0 & F1 & F2 & F3 & F4). exists c. split; [exact Ec|]. split; [exact Cc|].
  intros q Hq. rewrite F0, F1, F2, F3, F4. split; [|split].
  - unfold col. rewrite (nth_indep _ 0 (nth 0 [] 0)) by (rewrite map_length; unfold col in L0; rewrite map_length in L0; lia). rewrite (map_nth (fun r => nth 0 r 0)).
    change (nth 0 (nth q (mrows b0) []) 0) with (at2 b0 q 0). rewrite A0 by lia. f_equal.
  - intros i Hi. rewrite A1, A2, A3 by trivial. repeat split; f_equal; lia.
  - intros j Hj. now rewrite A4.
Qed.
Lemma py_read_ok n d m M : samples n (1 + 3 * d + m) M -> (2 <= n)%nat -> (1 <= 3 * d + m)%nat -> exists t,
  py_read (text_of M) m = Ok t /\ consistent t /\ tj_dim t = d /\ length (tj_ts t) = n /\ tj_dt t = dt_mean (tj_ts t) /\ misc_cols t = m /\
  forall k, (k < n)%nat ->
    nth k (tj_ts t) 0 = at2 M k 0 /\
    (forall i, (i < d)%nat -> at2 (tj_ys t) k i = at2 M k (1 + i) /\ at2 (tj_yds t) k i = at2 M k (1 + d + i) /\ at2 (tj_ydds t) k i = at2 M k (1 + 2 * d + i)) /\
    (forall j, (j < m)%nat -> misc_at t k j = at2 M k (1 + 3 * d + j)).
Proof.
  intros HM Hn Hc. unfold py_read. rewrite (table_ok _ _ _ HM) by lia. cbn [bind]. unfold loadtxt, nrows. pose proof HM as (C & L & _). rewrite C, L.
  destruct (Nat.ltb_spec n 2); [lia|]. destruct (Nat.ltb_spec (1 + 3 * d + m) 2); [lia|]. exact (from_matrix_entries n d m M HM).
Qed.
(** Python and C++ read the same *)
Lemma read_same n d m M : samples n (1 + 3 * d + m) M -> (2 <= n)%nat -> (1 <= 3 * d + m)%nat -> exists t c,
  py_read (text_of M) m = Ok t /\ consistent t /\ fresh_dt t /\ c_read (text_of M) m = Ok c /\ c_consistent n d m c /\ same_data t c.
Proof.
  intros HM Hn Hc. destruct (py_read_ok n d m M HM Hn Hc) as (t & Et & Ct & Dt & Lt & DT & Mt & At).
  assert (HM' : samples n (1 + 3 * d + m + 0) M) by now rewrite Nat.add_0_r. destruct (c_read_gen n d m 0 M HM' ltac:(lia) ltac:(lia)) as (c & Ec & Cc & Ac).
  exists t, c. split; [exact Et|]. split; [exact Ct|]. split; [now apply fresh_iff|]. split; [exact Ec|]. split; [exact Cc|].
  pose proof Cc as (C0 & C1 & C2 & C3 & C4). pose proof Ct as (T1 & T2 & T3 & _). rewrite Lt, Dt in T1, T2, T3. split; [|split; [|split; [|split; [|split; [|split]]]]].
  - apply (nth_ext _ _ 0 0); [congruence|]. intros k Hk. rewrite Lt in Hk. now rewrite (proj1 (At k Hk)), (proj1 (Ac k Hk)).
  - apply (at2_ext n d); trivial. intros k i Hk Hi. now rewrite (proj1 (proj1 (proj2 (At k Hk)) i Hi)), (proj1 (proj1 (proj2 (Ac k Hk)) i Hi)).
  - apply (at2_ext n d); trivial. intros k i Hk Hi. now rewrite (proj1 (proj2 (proj1 (proj2 (At k Hk)) i Hi))), (proj1 (proj2 (proj1 (proj2 (Ac k Hk)) i Hi))).
  - apply (at2_ext n d); trivial. intros k i Hk Hi. now rewrite (proj2 (proj2 (proj1 (proj2 (At k Hk)) i Hi))), (proj2 (proj2 (proj1 (proj2 (Ac k Hk)) i Hi))).
  - unfold c_dim. destruct C1 as (C1 & _). congruence.
  - unfold c_dim_misc. destruct C4 as (C4 & _). congruence.
  - intros k j Hk Hj. rewrite Lt in Hk. rewrite Mt in Hj. now rewrite (proj2 (proj2 (At k Hk)) j Hj), (proj2 (proj2 (Ac k Hk)) j Hj).
Qed.

(** ** writing *)
Lemma text_map rnd (M : mat) : map (fun r => Line (map (fun x => Some (rnd x)) r) false) (mrows M) = text_of (Mat (mcols M) (map (map rnd) (mrows M))).
Proof. cbn [mrows]. rewrite map_map. apply map_ext. intros r. now rewrite map_map. Qed.
(** a C++ trajectory as a Python trajectory *)
Definition view (c : ctraj) : traj := Traj (ct_ts c) (dt_mean (ct_ts c)) (c_dim c) (ct_ys c) (ct_yds c) (ct_ydds c) (Some (V2 (ct_misc c))).
Lemma view_consistent n d k c : c_consistent n d k c -> consistent (view c) /\ tj_dim (view c) = d /\ misc_cols (view c) = k /\ length (tj_ts (view c)) = n.
Proof.
  intros (L & A & B & D & M). assert (E : c_dim c = d) by apply A. unfold consistent, view. cbn. rewrite L, E. split; [|split; [|split]]; trivial.
  - split; [trivial|]. split; [trivial|]. split; [trivial|]. intros a [= <-]. split; [exists n, k; trivial|]. cbn. apply M.
  - unfold misc_cols. cbn. apply M.
Qed.
Lemma c_stack_eq a b m : stack a b = Ok m -> c_stack a b = Ok m.
Proof. unfold stack, c_stack. destruct (Nat.eqb (nrows a) (nrows b)); [|discriminate]. trivial. Qed.
Lemma c_matrix_view c M : as_matrix (view c) = Ok M -> c_matrix c = Ok M.
Proof.
  unfold as_matrix, c_matrix, view. cbn [tj_ts tj_ys tj_yds tj_ydds tj_misc].
  destruct (stack (as_col (ct_ts c)) (ct_ys c)) as [m1|] eqn:E1; [|discriminate]. rewrite (c_stack_eq _ _ _ E1). cbn [bind].
  destruct (stack m1 (ct_yds c)) as [m2|] eqn:E2; [|discriminate]. rewrite (c_stack_eq _ _ _ E2). cbn [bind].
  destruct (stack m2 (ct_ydds c)) as [m3|] eqn:E3; [|discriminate]. rewrite (c_stack_eq _ _ _ E3). cbn [bind]. apply c_stack_eq.
Qed.
Lemma py_save_ok rnd t : consistent t -> exists M, as_matrix t = Ok M /\ py_save rnd t = Ok (text_of (Mat (mcols M) (map (map rnd) (mrows M)))).
Proof. intros Ht. destruct (as_matrix_rows t Ht) as (M & E & _). exists M. split; [exact E|]. unfold py_save. rewrite E. cbn [bind]. unfold py_text. now rewrite text_map. Qed.
Lemma c_save_ok rnd n d k c : c_consistent n d k c -> (1 <= n)%nat -> exists M, as_matrix (view c) = Ok M /\ c_save rnd c = Ok (text_of (Mat (mcols M) (map (map rnd) (mrows M)))).
Proof.
  intros Hc Hn. destruct (view_consistent n d k c Hc) as (Hv & D & Mi & L). destruct (as_matrix_rows _ Hv) as (M & E & SM & _). exists M. split; [exact E|].
  unfold c_save. rewrite (c_matrix_view _ _ E). cbn [bind]. unfold c_text, nrows. destruct SM as (C & R & _). rewrite C, R, L.
  destruct (Nat.eqb_spec (n * (1 + 3 * tj_dim (view c) + misc_cols (view c))) 0) as [Z|_]; [apply Nat.mul_eq_0 in Z; lia|]. now rewrite text_map, C.
Qed.

(** ** exchanging *)
Section Rnd.
Variable rnd : R -> R.
Lemma rounded t M : consistent t -> as_matrix t = Ok M -> let F := Mat (mcols M) (map (map rnd) (mrows M)) in
  samples (length (tj_ts t)) (1 + 3 * tj_dim t + misc_cols t) F /\
  forall k, (k < length (tj_ts t))%nat ->
    at2 F k 0 = rnd (nth k (tj_ts t) 0) /\
    (forall i, (i < tj_dim t)%nat -> at2 F k (1 + i) = rnd (at2 (tj_ys t) k i) /\ at2 F k (1 + tj_dim t + i) = rnd (at2 (tj_yds t) k i) /\
                                   at2 F k (1 + 2 * tj_dim t + i) = rnd (at2 (tj_ydds t) k i)) /\
    (forall j, (j < misc_cols t)%nat -> at2 F k (1 + 3 * tj_dim t + j) = rnd (misc_at t k j)).
Proof.
  intros Ht E. destruct (as_matrix_entries t M Ht E) as (SM & EM). cbv zeta. split; [now apply map_samples|]. intros k Hk. destruct (EM k Hk) as (G1 & G2 & G3). split; [|split].
  - rewrite <- G1. apply (map_at2 _ _ _ _ _ _ _ SM Hk). lia.
  - intros i Hi. destruct (G2 i Hi) as (<- & <- & <-). rewrite !(map_at2 _ _ _ _ _ _ _ SM Hk) by lia. auto.
  - intros j Hj. rewrite <- (G3 j Hj). apply (map_at2 _ _ _ _ _ _ _ SM Hk). lia.
Qed.
(** the numbers of c are the rounded numbers of t *)
Definition rounds (t : traj) (c : ctraj) : Prop :=
  forall k, (k < length (tj_ts t))%nat ->
    nth k (ct_ts c) 0 = rnd (nth k (tj_ts t) 0) /\
    (forall i, (i < tj_dim t)%nat -> at2 (ct_ys c) k i = rnd (at2 (tj_ys t) k i) /\ at2 (ct_yds c) k i = rnd (at2 (tj_yds t) k i) /\
                                   at2 (ct_ydds c) k i = rnd (at2 (tj_ydds t) k i)) /\
    (forall j, (j < misc_cols t)%nat -> at2 (ct_misc c) k j = rnd (misc_at t k j)).
Lemma read_rounds t M : consistent t -> as_matrix t = Ok M -> (1 <= length (tj_ts t))%nat -> exists c,
  c_read (text_of (Mat (mcols M) (map (map rnd) (mrows M)))) (misc_cols t) = Ok c /\ c_consistent (length (tj_ts t)) (tj_dim t) (misc_cols t) c /\ rounds t c.
Proof.
  intros Ht E Hn. destruct (rounded t M Ht E) as (SF & EF). rewrite <- (Nat.add_0_r (1 + 3 * tj_dim t + misc_cols t)) in SF.
  destruct (c_read_gen _ _ _ _ _ SF Hn ltac:(lia)) as (c & Ec & Cc & Ac). exists c. split; [exact Ec|]. split; [exact Cc|].
  intros k Hk. destruct (EF k Hk) as (G1 & G2 & G3), (Ac k Hk) as (F1 & F2 & F3). split; [congruence|]. split.
  - intros i Hi. destruct (G2 i Hi) as (<- & <- & <-). auto.
  - intros j Hj. rewrite <- (G3 j Hj). auto.
Qed.
Lemma py_to_cpp t : consistent t -> (1 <= length (tj_ts t))%nat -> exists ls c,
  py_save rnd t = Ok ls /\ c_read ls (misc_cols t) = Ok c /\ c_consistent (length (tj_ts t)) (tj_dim t) (misc_cols t) c /\ rounds t c /\
  ((2 <= length (tj_ts t))%nat -> (1 <= tj_dim t)%nat -> exists t', py_read ls (misc_cols t) = Ok t' /\ consistent t' /\ same_data t' c).
Proof.
  intros Ht Hn. destruct (py_save_ok rnd t Ht) as (M & E & Es). destruct (read_rounds t M Ht E Hn) as (c & Ec & Cc & Rc). eexists _, c. split; [exact Es|]. split; [exact Ec|].
  split; [exact Cc|]. split; [exact Rc|]. intros Hn2 Hd. destruct (rounded t M Ht E) as (SF & _).
  destruct (read_same _ _ _ _ SF Hn2 ltac:(lia)) as (t' & c' & Et & Ct & _ & Ec' & _ & Sd). rewrite Ec in Ec'. apply ok_inj in Ec'. subst c'. eauto.
Qed.
Lemma cpp_to_py n d m c : c_consistent n d m c -> (1 <= n)%nat -> exists ls c',
  c_save rnd c = Ok ls /\ c_read ls m = Ok c' /\ c_consistent n d m c' /\ rounds (view c) c' /\
  ((2 <= n)%nat -> (1 <= d)%nat -> exists t, py_read ls m = Ok t /\ consistent t /\ fresh_dt t /\ same_data t c').
Proof.
  intros Hc Hn. destruct (view_consistent n d m c Hc) as (Hv & D & Mi & L). destruct (c_save_ok rnd n d m c Hc Hn) as (M & E & Es).
  destruct (read_rounds (view c) M Hv E ltac:(lia)) as (c' & Ec & Cc & Rc). rewrite Mi in Ec. rewrite L, D, Mi in Cc. eexists _, c'. split; [exact Es|]. split; [exact Ec|].
  split; [exact Cc|]. split; [exact Rc|]. intros Hn2 Hd. destruct (rounded _ M Hv E) as (SF & _). rewrite L, D, Mi in SF.
  destruct (read_same _ _ _ _ SF Hn2 ltac:(lia)) as (t' & c'' & Et & Ct & Fr & Ec' & _ & Sd). rewrite Ec in Ec'. apply ok_inj in Ec'. subst c''. exists t'. auto.
Qed.
Lemma c_ext n d m c c' : c_consistent n d m c -> c_consistent n d m c' ->
  (forall k, (k < n)%nat -> nth k (ct_ts c) 0 = nth k (ct_ts c') 0 /\
    (forall i, (i < d)%nat -> at2 (ct_ys c) k i = at2 (ct_ys c') k i /\ at2 (ct_yds c) k i = at2 (ct_yds c') k i /\ at2 (ct_ydds c) k i = at2 (ct_ydds c') k i) /\
    (forall j, (j < m)%nat -> at2 (ct_misc c) k j = at2 (ct_misc c') k j)) -> c = c'.
Proof.
  intros (L & A & B & D & M) (L' & A' & B' & D' & M') H. destruct c as [ts ys yds ydds mi], c' as [ts' ys' yds' ydds' mi']. cbn in *. f_equal.
  - apply (nth_ext _ _ 0 0); [congruence|]. intros k Hk. apply H. lia.
  - apply (at2_ext n d); trivial. intros k i Hk Hi. now apply H.
  - apply (at2_ext n d); trivial. intros k i Hk Hi. now apply (H k Hk).
  - apply (at2_ext n d); trivial. intros k i Hk Hi. now apply (H k Hk).
  - apply (at2_ext n m); trivial. intros k i Hk Hi. now apply H.
Qed.
(** files read from files are stable *)
Lemma cpp_stable n d m c ls c' : (forall x, rnd (rnd x) = rnd x) -> c_consistent n d m c -> (1 <= n)%nat -> c_save rnd c = Ok ls -> c_read ls m = Ok c' ->
  exists ls', c_save rnd c' = Ok ls' /\ c_read ls' m = Ok c'.
Proof.
  intros Hr Hc Hn Es Er. destruct (cpp_to_py n d m c Hc Hn) as (ls0 & c0 & E1 & E2 & C0 & R0 & _). rewrite Es in E1. apply ok_inj in E1. subst ls0. rewrite Er in E2. apply ok_inj in E2. subst c0.
  destruct (cpp_to_py n d m c' C0 Hn) as (ls' & c'' & E1' & E2' & C1 & R1 & _). exists ls'. split; [exact E1'|]. rewrite E2'. f_equal.
  destruct (view_consistent n d m c Hc) as (_ & D & Mi & L). destruct (view_consistent n d m c' C0) as (_ & D' & Mi' & L').
  apply (c_ext n d m); trivial. intros k Hk. unfold rounds in R0, R1. rewrite L, D, Mi in R0. rewrite L', D', Mi' in R1. destruct (R0 k Hk) as (X1 & X2 & X3), (R1 k Hk) as (Y1 & Y2 & Y3).
  cbn [view tj_ts tj_ys tj_yds tj_ydds] in *. split; [|split].
  - rewrite Y1, X1. apply Hr.
  - intros i Hi. destruct (X2 i Hi) as (U1 & U2 & U3), (Y2 i Hi) as (V1 & V2 & V3). rewrite V1, V2, V3, U1, U2, U3, !Hr. auto.
  - intros j Hj. rewrite (Y3 j Hj). change (misc_at (view c') k j) with (at2 (ct_misc c') k j). rewrite (X3 j Hj). apply Hr.
Qed.
End Rnd.

Lemma decimals_stable u rnd x : 0 < u -> decimals u rnd -> rnd (rnd x) = rnd x.
Proof.
  intros Hu H. destruct (H x) as (z & E & _). destruct (H (rnd x)) as (z' & E' & B). rewrite E' in *. rewrite E in *.
  f_equal. f_equal. assert (B' : Rabs (IZR (z' - z)) <= 0.5).
  { rewrite minus_IZR. replace (IZR z' * u - IZR z * u) with ((IZR z' - IZR z) * u) in B by ring. rewrite Rabs_mult, (Rabs_right u) in B by lra.
    apply (Rmult_le_reg_r u); lra. }
  rewrite <- abs_IZR in B'. assert (HH : IZR (Z.abs (z' - z)) < 1) by lra. apply lt_IZR in HH. lia.
Qed.
Lemma rounds_near u rnd t c : decimals u rnd -> c_consistent (length (tj_ts t)) (tj_dim t) (misc_cols t) c -> rounds rnd t c -> near (u / 2) t c.
Proof.
  intros Hr (L & A & _ & _ & M) H. assert (B : forall x, Rabs (rnd x - x) <= u / 2) by (intros x; now destruct (Hr x) as (_ & _ & B)).
  split; [trivial|]. split; [apply A|]. split; [apply M|]. intros k Hk. destruct (H k Hk) as (-> & H2 & H3). split; [apply B|]. split.
  - intros i Hi. destruct (H2 i Hi) as (-> & -> & ->). auto.
  - intros j Hj. rewrite (H3 j Hj). apply B.
Qed.
Lemma rounds_c_near u rnd n d m c c' : decimals u rnd -> c_consistent n d m c -> c_consistent n d m c' -> rounds rnd (view c) c' -> c_near (u / 2) c c'.
Proof.
  intros Hr Hc Hc' H. destruct (view_consistent n d m c Hc) as (_ & D & Mi & L). rewrite <- L, <- D, <- Mi in Hc'. destruct (rounds_near u rnd (view c) c' Hr Hc' H) as (N1 & N2 & N3 & N4).
  unfold c_near. split; [exact N1|]. split; [exact N2|]. split; [exact N3|]. exact N4.
Qed.
