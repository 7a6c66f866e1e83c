From Coq Require Import String.
From Verif Require Import Base BaseLemmas UpdatersModel UpdatersSpec.
Open Scope R_scope.

(** ** first components *)
Lemma first_cost_total c r : first_cost c = Ok r <-> has_total c r.
Proof.
  unfold has_total; destruct c as [x|[|x l]]; cbn; split; intros H.
  - injection H as ->; now left.
  - destruct H as [H|[l H]]; [injection H as ->; reflexivity|discriminate].
  - discriminate.
  - destruct H as [H|[l H]]; discriminate.
  - injection H as ->; right; now exists l.
  - destruct H as [H|[l' H]]; [discriminate|]. injection H as -> ->; reflexivity.
Qed.

Lemma mapM_first_totals costs rs : mapM first_cost costs = Ok rs <-> totals costs rs.
Proof.
  rewrite mapM_ok_iff. unfold totals. split; intros H.
  - eapply Forall2_imp; [|exact H]. intros; now apply first_cost_total.
  - eapply Forall2_imp; [|exact H]. intros; now apply first_cost_total.
Qed.

Lemma mapM_first_err costs e : mapM first_cost costs = Err e -> e = IndexError /\ In (CVec []) costs.
Proof.
  induction costs as [|c costs IH]; cbn; [discriminate|].
  destruct (first_cost c) as [r|e'] eqn:E; cbn.
  - destruct (mapM first_cost costs) as [rs|e'']; cbn; [discriminate|].
    intros H; injection H as <-. destruct (IH eq_refl) as [-> H]; auto.
  - intros H; injection H as <-. destruct c as [r|[|r l]]; cbn in E; try discriminate.
    injection E as <-; auto.
Qed.

Lemma mapM_first_in_empty costs : In (CVec []) costs -> mapM first_cost costs = Err IndexError.
Proof.
  intros H. destruct (mapM first_cost costs) as [rs|e] eqn:E.
  - apply mapM_first_totals in E. exfalso. induction E as [|c r cs rs Hc _ IH]; [destruct H|].
    destruct H as [->|H]; [|now apply IH]. destruct Hc as [Hc|[l Hc]]; discriminate.
  - now destruct (mapM_first_err _ _ E) as [-> _].
Qed.

Lemma totals_length costs rs : totals costs rs -> length rs = length costs.
Proof. unfold totals; intros H; symmetry; eapply Forall2_len; exact H. Qed.

Lemma totals_det costs rs rs' : totals costs rs -> totals costs rs' -> rs = rs'.
Proof. intros H1 H2. apply mapM_first_totals in H1, H2. congruence. Qed.

(** ** permutations of indices *)
Lemma perm_seq_lt idx n i : Permutation idx (seq 0 n) -> In i idx -> (i < n)%nat.
Proof. intros H Hi. apply (Permutation_in _ H) in Hi. apply in_seq in Hi; lia. Qed.

Lemma perm_seq_nodup idx n : Permutation idx (seq 0 n) -> NoDup idx.
Proof. intros H. apply Permutation_sym in H. eapply Permutation_NoDup; [exact H|apply seq_NoDup]. Qed.

Lemma perm_seq_length idx n : Permutation idx (seq 0 n) -> length idx = n.
Proof. intros H. apply Permutation_length in H. now rewrite seq_length in H. Qed.

Lemma perm_seq_nth_lt idx n r : Permutation idx (seq 0 n) -> (r < n)%nat -> (nth r idx 0 < n)%nat.
Proof.
  intros H Hr. apply (perm_seq_lt idx n _ H), nth_In. now rewrite (perm_seq_length _ _ H).
Qed.

Lemma perm_seq_surj idx n i : Permutation idx (seq 0 n) -> (i < n)%nat ->
  exists r, (r < n)%nat /\ nth r idx 0%nat = i.
Proof.
  intros H Hi. assert (In i idx) as Hin.
  { apply (Permutation_in _ (Permutation_sym H)), in_seq; lia. }
  destruct (In_nth_lt _ _ 0%nat Hin) as (r & Hr & E). exists r; split; [|exact E].
  now rewrite <- (perm_seq_length _ _ H).
Qed.

Lemma perm_seq_inj idx n r r' : Permutation idx (seq 0 n) -> (r < n)%nat -> (r' < n)%nat ->
  nth r idx 0%nat = nth r' idx 0%nat -> r = r'.
Proof.
  intros H Hr Hr' E. pose proof (perm_seq_nodup _ _ H) as Hnd.
  rewrite <- (perm_seq_length _ _ H) in Hr, Hr'.
  now apply (proj1 (NoDup_nth idx 0%nat) Hnd).
Qed.

Lemma rsum_by_perm idx w :
  Permutation idx (seq 0 (length w)) -> rsum w = rsum (map (fun i => nth i w 0) idx).
Proof.
  intros H. rewrite (list_eq_map_nth 0 w) at 1. apply rsum_perm. symmetry. now apply Permutation_map.
Qed.

(** ** the common shape of the rank-based loops *)
Definition wloop (idx : list nat) (V : nat -> R) (rs : list nat) (w : list R) : list R :=
  fold_left (fun w r => set_nth w (nth r idx 0%nat) (V r)) rs w.

Lemma wloop_length idx V rs w : length (wloop idx V rs w) = length w.
Proof.
  unfold wloop. revert w; induction rs as [|r rs IH]; intros w; cbn; [reflexivity|].
  now rewrite IH, set_nth_length.
Qed.

Lemma wloop_seq_S idx V k w :
  wloop idx V (seq 0 (S k)) w = set_nth (wloop idx V (seq 0 k) w) (nth k idx 0%nat) (V k).
Proof. unfold wloop. rewrite seq_S, fold_left_app; reflexivity. Qed.

Lemma wloop_spec idx V n k w r :
  Permutation idx (seq 0 n) -> length w = n -> (k <= n)%nat -> (r < n)%nat ->
  nth (nth r idx 0%nat) (wloop idx V (seq 0 k) w) 0 =
  if Nat.ltb r k then V r else nth (nth r idx 0%nat) w 0.
Proof.
  intros Hp Hw Hk Hr. induction k as [|k IH]; [reflexivity|].
  rewrite wloop_seq_S, nth_set_nth, wloop_length, Hw.
  pose proof (perm_seq_nth_lt idx n k Hp ltac:(lia)) as Hlt.
  destruct (Nat.ltb_spec (nth k idx 0%nat) n); [|lia]. rewrite andb_true_r.
  destruct (Nat.eqb_spec (nth r idx 0%nat) (nth k idx 0%nat)) as [E|E].
  - apply (perm_seq_inj idx n) in E; [|exact Hp|lia|lia]. subst r.
    destruct (Nat.ltb_spec k (S k)); [reflexivity|lia].
  - rewrite IH by lia. assert (r <> k) by (intros ->; now apply E).
    destruct (Nat.ltb_spec r k), (Nat.ltb_spec r (S k)); try reflexivity; lia.
Qed.

(** the raw weights of a rank-based method *)
Definition rank_raw (idx : list nat) (n k : nat) (V : nat -> R) : list R :=
  wloop idx V (seq 0 k) (zeros n).

Lemma zeros_length n : length (zeros n) = n.
Proof. apply repeat_length. Qed.

Lemma nth_zeros n i : nth i (zeros n) 0 = 0.
Proof. unfold zeros. revert i; induction n as [|n IH]; intros [|i]; cbn; auto. Qed.

Lemma rank_raw_length idx n k V : length (rank_raw idx n k V) = n.
Proof. unfold rank_raw. now rewrite wloop_length, zeros_length. Qed.

Lemma rank_raw_nth idx n k V r :
  Permutation idx (seq 0 n) -> (k <= n)%nat -> (r < n)%nat ->
  nth (nth r idx 0%nat) (rank_raw idx n k V) 0 = if Nat.ltb r k then V r else 0.
Proof.
  intros Hp Hk Hr. unfold rank_raw. rewrite (wloop_spec idx V n k); auto using zeros_length.
  now rewrite nth_zeros.
Qed.

Lemma sumn_firstk n k V : (k <= n)%nat -> sumn n (fun r => if Nat.ltb r k then V r else 0) = sumn k V.
Proof.
  intros Hk. induction n as [|n IH]; cbn [sumn].
  - assert (k = 0%nat) by lia; subst; reflexivity.
  - destruct (Nat.ltb_spec n k) as [H|H].
    + assert (k = S n) by lia; subst. cbn [sumn]. f_equal. apply sumn_ext. intros i Hi.
      destruct (Nat.ltb_spec i (S n)); [reflexivity|lia].
    + rewrite IH by lia. ring.
Qed.

Lemma rank_raw_sum idx n k V :
  Permutation idx (seq 0 n) -> (k <= n)%nat -> rsum (rank_raw idx n k V) = sumn k V.
Proof.
  intros Hp Hk. rewrite (rsum_by_perm idx) by now rewrite rank_raw_length.
  rewrite (list_eq_map_nth 0%nat idx), map_map, (perm_seq_length _ _ Hp), rsum_seq.
  rewrite <- (sumn_firstk n k V Hk). apply sumn_ext. intros r Hr.
  rewrite <- (rank_raw_nth idx n k V r Hp Hk Hr). f_equal. rewrite <- (perm_seq_length _ _ Hp).
  now rewrite <- list_eq_map_nth.
Qed.

(** CEM as a rank loop *)
Lemma fold_firstn_wloop idx v k w : (k <= length idx)%nat ->
  fold_left (fun w i => set_nth w i v) (firstn k idx) w = wloop idx (fun _ => v) (seq 0 k) w.
Proof.
  intros Hk. induction k as [|k IH]; [reflexivity|].
  rewrite wloop_seq_S, <- IH by lia.
  assert (firstn (S k) idx = firstn k idx ++ [nth k idx 0%nat]) as ->.
  { clear -Hk. revert idx Hk; induction k as [|k IH]; intros [|x idx] Hk; cbn in *; try lia.
    - reflexivity.
    - f_equal. apply IH. lia. }
  now rewrite fold_left_app.
Qed.

(** number of selected samples in CEM for an integer mu *)
Definition cem_k (z : Z) (n : nat) : nat :=
  if (0 <=? z)%Z then Nat.min (Z.to_nat z) n else (n - Z.to_nat (- z))%nat.

Lemma cem_k_le z n : (cem_k z n <= n)%nat.
Proof. unfold cem_k; destruct (0 <=? z)%Z; lia. Qed.

Lemma slice_to_firstn {A} z (l : list A) : slice_to z l = firstn (cem_k z (length l)) l.
Proof.
  unfold slice_to, cem_k. destruct (0 <=? z)%Z; [|reflexivity].
  destruct (Nat.le_ge_cases (Z.to_nat z) (length l)).
  - now rewrite Nat.min_l.
  - rewrite Nat.min_r by assumption. now rewrite firstn_all, firstn_all2.
Qed.

Lemma cem_raw_eq argsort z costs :
  argsort_ok argsort -> z <> 0%Z ->
  cem_raw argsort (EInt z) costs =
  Ok (rank_raw (argsort costs) (length costs) (cem_k z (length costs)) (fun _ => 1 / IZR z)).
Proof.
  intros Ha Hz. unfold cem_raw. cbn [elit_R].
  destruct (Req_EM_T (IZR z) 0) as [E|_].
  { apply eq_IZR in E; contradiction. }
  f_equal. rewrite slice_to_firstn. destruct (Ha costs) as [Hp _].
  rewrite (perm_seq_length _ _ Hp). rewrite fold_firstn_wloop; [reflexivity|].
  rewrite (perm_seq_length _ _ Hp). apply cem_k_le.
Qed.

(** CMA-ES as a rank loop *)
Definition cma_V (mu : Z) (ii : nat) : R := ln (IZR mu + 1/2) - ln (INR ii + 1).

Lemma cmaes_loop_ok idx mu iis w :
  (forall ii, In ii iis -> (ii < length idx)%nat) ->
  cmaes_loop idx mu iis w = Ok (wloop idx (cma_V mu) iis w).
Proof.
  revert w; induction iis as [|ii iis IH]; intros w H; [reflexivity|].
  cbn [cmaes_loop]. rewrite (nth_res_ok idx ii 0%nat) by (apply H; now left). cbn [bind].
  rewrite IH by (intros; apply H; now right). reflexivity.
Qed.

Lemma cmaes_loop_err idx mu iis w :
  (exists ii, In ii iis /\ (length idx <= ii)%nat) -> cmaes_loop idx mu iis w = Err IndexError.
Proof.
  revert w; induction iis as [|ii iis IH]; intros w (j & Hin & Hj); [destruct Hin|].
  cbn [cmaes_loop]. destruct (Nat.lt_ge_cases ii (length idx)) as [Hlt|Hge].
  - rewrite (nth_res_ok idx ii 0%nat) by exact Hlt. cbn [bind]. apply IH.
    destruct Hin as [->|Hin]; [lia|]. now exists j.
  - now rewrite nth_res_err.
Qed.

Lemma cmaes_raw_ok argsort z costs :
  argsort_ok argsort -> (z <= Z.of_nat (length costs))%Z ->
  cmaes_raw argsort (EInt z) costs =
  Ok (rank_raw (argsort costs) (length costs) (Z.to_nat z) (cma_V z)).
Proof.
  intros Ha Hz. unfold cmaes_raw. destruct (Ha costs) as [Hp _].
  rewrite cmaes_loop_ok; [reflexivity|]. intros ii Hii. apply in_seq in Hii.
  rewrite (perm_seq_length _ _ Hp). lia.
Qed.

Lemma cmaes_raw_err argsort z costs :
  argsort_ok argsort -> (Z.of_nat (length costs) < z)%Z ->
  cmaes_raw argsort (EInt z) costs = Err IndexError.
Proof.
  intros Ha Hz. unfold cmaes_raw. destruct (Ha costs) as [Hp _].
  apply cmaes_loop_err. exists (length costs). rewrite (perm_seq_length _ _ Hp).
  split; [apply in_seq; lia|lia].
Qed.

Lemma cma_V_pos mu ii : (Z.of_nat ii < mu)%Z -> 0 < cma_V mu ii.
Proof.
  intros H. unfold cma_V. apply Rlt_Rminus, ln_increasing.
  - pose proof (pos_INR ii); lra.
  - assert (Z.of_nat ii + 1 <= mu)%Z as H1 by lia. apply IZR_le in H1.
    rewrite plus_IZR, <- INR_IZR_INZ in H1. lra.
Qed.

Lemma cma_V_decr mu ii jj : (ii < jj)%nat -> cma_V mu jj < cma_V mu ii.
Proof.
  intros H. unfold cma_V. apply lt_INR in H. pose proof (pos_INR ii).
  assert (ln (INR ii + 1) < ln (INR jj + 1)) by (apply ln_increasing; lra). lra.
Qed.

(** ** normalization *)
Lemma normalize_ok w : rsum w <> 0 -> normalize w = Ok (map (fun x => x / rsum w) w).
Proof.
  intros H. unfold normalize. destruct w as [|x w]; [reflexivity|].
  destruct (Req_EM_T (rsum (x :: w)) 0); [contradiction|reflexivity].
Qed.

Lemma normalize_nonfinite w : w <> [] -> rsum w = 0 -> normalize w = Err NonFinite.
Proof.
  intros Hw H. unfold normalize. destruct w as [|x w]; [congruence|].
  destruct (Req_EM_T (rsum (x :: w)) 0); [reflexivity|contradiction].
Qed.

Lemma sumn_pos k V : (0 < k)%nat -> (forall r, (r < k)%nat -> 0 < V r) -> 0 < sumn k V.
Proof.
  intros Hk H. destruct k as [|k]; [lia|]. cbn.
  assert (0 <= sumn k V) by (apply sumn_nonneg; intros; left; apply H; lia).
  pose proof (H k ltac:(lia)); lra.
Qed.

(** ** PI-BB *)
Definition pibb_weight (h mn range c : R) : R := exp (- h * (c - mn) / range).

(** PI-BB raw weights are a pointwise function of the cost, given min and max; the case of a
    zero range is covered by the same formula because x / 0 multiplies c - mn = 0. *)
Lemma pibb_raw_eq h x l :
  let mn := rmin_list x l in let mx := rmax_list x l in
  pibb_raw h (x :: l) = Ok (map (pibb_weight h mn (mx - mn)) (x :: l)).
Proof.
  intros mn mx. unfold pibb_raw. fold mn mx. destruct (Req_EM_T (mx - mn) 0) as [E|E].
  - f_equal. apply map_ext_in. intros c Hc. unfold pibb_weight.
    assert (mn <= c) by (apply rmin_list_lb; destruct Hc; auto).
    assert (c <= mx) by (apply rmax_list_ub; destruct Hc; auto).
    replace (c - mn) with 0 by lra. unfold Rdiv. rewrite Rmult_0_r, Rmult_0_l, exp_0. reflexivity.
  - reflexivity.
Qed.

Lemma pibb_sum_pos h mn range cs : cs <> [] -> 0 < rsum (map (pibb_weight h mn range) cs).
Proof.
  intros H. apply rsum_pos.
  - destruct cs; [congruence|discriminate].
  - intros y Hy. apply in_map_iff in Hy. destruct Hy as (c & <- & _). apply exp_pos.
Qed.

Definition lmin (cs : list R) : R := match cs with [] => 0 | x :: l => rmin_list x l end.
Definition lmax (cs : list R) : R := match cs with [] => 0 | x :: l => rmax_list x l end.

Definition pibb_w (h : R) (cs : list R) (c : R) : R :=
  pibb_weight h (lmin cs) (lmax cs - lmin cs) c /
  rsum (map (pibb_weight h (lmin cs) (lmax cs - lmin cs)) cs).

Lemma not_rank_pibb argsort costs cs m e :
  ~ rank_method m -> totals costs cs -> costs <> [] ->
  costs_to_weights argsort costs m e = Ok (map (pibb_w (elit_R e) cs) cs).
Proof.
  intros Hm Hc Hne. unfold costs_to_weights.
  assert (Hlen := totals_length _ _ Hc).
  apply mapM_first_totals in Hc. rewrite Hc. cbn [bind].
  assert ((m =? "CEM")%string = false) as ->.
  { destruct (String.eqb_spec m "CEM"); [|reflexivity]. exfalso; apply Hm; now left. }
  assert ((m =? "CMA-ES")%string = false) as ->.
  { destruct (String.eqb_spec m "CMA-ES"); [|reflexivity]. exfalso; apply Hm; now right. }
  assert (forall b : bool, (if b then pibb_raw (elit_R e) cs else pibb_raw (elit_R e) cs)
          = pibb_raw (elit_R e) cs) as -> by now intros [].
  destruct cs as [|x l].
  { destruct costs; [congruence|discriminate]. }
  rewrite pibb_raw_eq. cbn [bind].
  rewrite normalize_ok.
  - rewrite map_map. reflexivity.
  - apply Rgt_not_eq, pibb_sum_pos; discriminate.
Qed.

Lemma rank_dec m : {rank_method m} + {~ rank_method m}.
Proof.
  unfold rank_method.
  destruct (string_dec m "CEM") as [E|N1]; [left; auto|].
  destruct (string_dec m "CMA-ES") as [E|N2]; [left; auto|].
  right; intros [H|H]; contradiction.
Qed.

(** ** the rank-based methods, in the common form *)
(** w assigns to the r-th best sample (in the order idx) the weight U r *)
Definition by_rank (idx : list nat) (n : nat) (U : nat -> R) (w : list R) : Prop :=
  length w = n /\ forall r, (r < n)%nat -> nth (nth r idx 0%nat) w 0 = U r.

Lemma rank_normalized idx n k V :
  Permutation idx (seq 0 n) -> (k <= n)%nat -> sumn k V <> 0 ->
  normalize (rank_raw idx n k V) =
    Ok (map (fun x => x / sumn k V) (rank_raw idx n k V)) /\
  by_rank idx n (fun r => if Nat.ltb r k then V r / sumn k V else 0)
    (map (fun x => x / sumn k V) (rank_raw idx n k V)).
Proof.
  intros Hp Hk Hs. split.
  - rewrite normalize_ok; rewrite rank_raw_sum by assumption; auto.
  - split; [now rewrite map_length, rank_raw_length|]. intros r Hr.
    rewrite (nth_map_lt _ _ _ 0)
      by (rewrite rank_raw_length; now apply perm_seq_nth_lt).
    rewrite rank_raw_nth by assumption.
    destruct (Nat.ltb r k); [reflexivity|]. unfold Rdiv; ring.
Qed.

Lemma sumn_const k c : sumn k (fun _ => c) = INR k * c.
Proof. induction k as [|k IH]; [cbn; ring|]. cbn [sumn]. rewrite IH, S_INR. ring. Qed.

Lemma cem_weights argsort costs cs z :
  argsort_ok argsort -> totals costs cs -> z <> 0%Z -> (0 < cem_k z (length cs))%nat ->
  exists w, costs_to_weights argsort costs "CEM" (EInt z) = Ok w /\
    by_rank (argsort cs) (length cs)
      (fun r => if Nat.ltb r (cem_k z (length cs)) then / INR (cem_k z (length cs)) else 0) w.
Proof.
  intros Ha Hc Hz Hk. set (k := cem_k z (length cs)) in *. set (n := length cs) in *.
  unfold costs_to_weights. apply mapM_first_totals in Hc. rewrite Hc. cbn [bind].
  change (if ("CEM" =? "PI-BB")%string then pibb_raw (elit_R (EInt z)) cs
          else if ("CEM" =? "CEM")%string then cem_raw argsort (EInt z) cs
          else if ("CEM" =? "CMA-ES")%string then cmaes_raw argsort (EInt z) cs
          else pibb_raw (elit_R (EInt z)) cs) with (cem_raw argsort (EInt z) cs).
  rewrite cem_raw_eq by assumption. cbn [bind]. fold n. fold k.
  assert (IZR z <> 0) as Hz' by (intros E; apply eq_IZR in E; contradiction).
  assert (0 < INR k) as Hk' by now apply lt_0_INR.
  assert (Hp := proj1 (Ha cs)). fold n in Hp.
  destruct (rank_normalized (argsort cs) n k (fun _ => 1 / IZR z) Hp (cem_k_le _ _)) as [E1 [E2 E3]].
  - rewrite sumn_const. unfold Rdiv. rewrite Rmult_1_l.
    apply Rmult_integral_contrapositive_currified; [lra|now apply Rinv_neq_0_compat].
  - rewrite E1. eexists; split; [reflexivity|]. split; [exact E2|].
    intros r Hr. rewrite E3 by exact Hr. destruct (Nat.ltb r k); [|reflexivity].
    rewrite sumn_const. field. split; [lra|exact Hz'].
Qed.

Lemma cma_weights argsort costs cs z :
  argsort_ok argsort -> totals costs cs -> (1 <= z <= Z.of_nat (length cs))%Z ->
  exists w, costs_to_weights argsort costs "CMA-ES" (EInt z) = Ok w /\
    by_rank (argsort cs) (length cs)
      (fun r => if Nat.ltb r (Z.to_nat z)
                then cma_V z r / sumn (Z.to_nat z) (cma_V z) else 0) w.
Proof.
  intros Ha Hc Hz.
  unfold costs_to_weights. apply mapM_first_totals in Hc. rewrite Hc. cbn [bind].
  change (if ("CMA-ES" =? "PI-BB")%string then pibb_raw (elit_R (EInt z)) cs
          else if ("CMA-ES" =? "CEM")%string then cem_raw argsort (EInt z) cs
          else if ("CMA-ES" =? "CMA-ES")%string then cmaes_raw argsort (EInt z) cs
          else pibb_raw (elit_R (EInt z)) cs) with (cmaes_raw argsort (EInt z) cs).
  rewrite cmaes_raw_ok by (auto; lia). cbn [bind].
  assert (Hp := proj1 (Ha cs)).
  destruct (rank_normalized (argsort cs) (length cs) (Z.to_nat z) (cma_V z) Hp) as [E1 E2].
  - lia.
  - apply Rgt_not_eq, sumn_pos; [lia|]. intros r Hr. apply cma_V_pos. lia.
  - rewrite E1. eexists; split; [reflexivity|exact E2].
Qed.

(** probability vectors from [by_rank] *)
Lemma by_rank_simplex idx n U w :
  Permutation idx (seq 0 n) -> by_rank idx n U w ->
  (forall r, (r < n)%nat -> 0 <= U r) -> sumn n U = 1 -> simplex n w.
Proof.
  intros Hp [Hlen Hw] HU Hs. split; [exact Hlen|]. split.
  - intros x Hx. destruct (In_nth_lt _ _ 0 Hx) as (i & Hi & <-). rewrite Hlen in Hi.
    destruct (perm_seq_surj idx n i Hp Hi) as (r & Hr & <-). rewrite Hw by exact Hr. now apply HU.
  - rewrite (rsum_by_perm idx) by now rewrite Hlen.
    rewrite (list_eq_map_nth 0%nat idx), map_map, (perm_seq_length _ _ Hp), rsum_seq.
    rewrite <- Hs. apply sumn_ext. intros r Hr. now apply Hw.
Qed.

Lemma cem_simplex_aux k n : (0 < k <= n)%nat ->
  (forall r, (r < n)%nat -> 0 <= (if Nat.ltb r k then / INR k else 0)) /\
  sumn n (fun r => if Nat.ltb r k then / INR k else 0) = 1.
Proof.
  intros Hk. assert (0 < INR k) by (apply lt_0_INR; lia). split.
  - intros r _. destruct (Nat.ltb r k); [|lra]. left; now apply Rinv_0_lt_compat.
  - rewrite (sumn_firstk n k (fun _ => / INR k)) by lia. rewrite sumn_const. field. lra.
Qed.

Lemma cma_simplex_aux z n : (1 <= z <= Z.of_nat n)%Z ->
  let U := fun r => if Nat.ltb r (Z.to_nat z)
                    then cma_V z r / sumn (Z.to_nat z) (cma_V z) else 0 in
  (forall r, (r < n)%nat -> 0 <= U r) /\ sumn n U = 1.
Proof.
  intros Hz U.
  assert (0 < sumn (Z.to_nat z) (cma_V z)) as Hs.
  { apply sumn_pos; [lia|]. intros; apply cma_V_pos; lia. }
  split.
  - intros r _. unfold U. destruct (Nat.ltb_spec r (Z.to_nat z)); [|lra].
    left. apply Rdiv_lt_0_compat; [|exact Hs]. apply cma_V_pos; lia.
  - unfold U. rewrite (sumn_firstk n (Z.to_nat z)
       (fun r => cma_V z r / sumn (Z.to_nat z) (cma_V z))) by lia.
    unfold Rdiv. rewrite sumn_scal_r. now apply Rinv_r, Rgt_not_eq.
Qed.

Lemma pibb_simplex h cs : cs <> [] -> simplex (length cs) (map (pibb_w h cs) cs).
Proof.
  intros Hne. unfold simplex. rewrite map_length. split; [reflexivity|].
  set (mn := lmin cs). set (rg := lmax cs - lmin cs).
  assert (0 < rsum (map (pibb_weight h mn rg) cs)) as Hs by now apply pibb_sum_pos.
  split.
  - intros x Hx. apply in_map_iff in Hx. destruct Hx as (c & <- & _).
    left. apply Rdiv_lt_0_compat; [apply exp_pos|exact Hs].
  - unfold pibb_w. fold mn rg.
    rewrite <- (map_map (pibb_weight h mn rg) (fun x => x / rsum (map (pibb_weight h mn rg) cs))).
    rewrite rsum_div. now apply Rinv_r, Rgt_not_eq.
Qed.
