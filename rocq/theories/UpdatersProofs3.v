From Coq Require Import String.
From Verif Require Import Base BaseLemmas UpdatersModel UpdatersSpec UpdatersProofs UpdatersProofs2.
Open Scope R_scope.

Section Weights.
Variable argsort : list R -> list nat.
Hypothesis Ha : argsort_ok argsort.

(** ** monotonicity *)
Lemma cs_pos_div h mn rg c c' :
  0 <= rg -> 0 <= h -> c <= c' -> (rg = 0 -> c = c') ->
  - h * (c' - mn) / rg <= - h * (c - mn) / rg.
Proof.
  intros Hrg Hh Hc H0. destruct (Req_dec rg 0) as [E|E]; [rewrite (H0 E); lra|].
  assert (0 < rg) by lra. unfold Rdiv.
  apply Rmult_le_compat_r; [left; now apply Rinv_0_lt_compat|]. nra.
Qed.

Lemma lmin_lmax cs c : In c cs -> lmin cs <= c <= lmax cs.
Proof.
  destruct cs as [|x l]; [intros []|]. intros H; cbn. split.
  - apply rmin_list_lb; destruct H; auto.
  - apply rmax_list_ub; destruct H; auto.
Qed.

Lemma pibb_sum_pos' h cs c :
  In c cs -> 0 < rsum (map (pibb_weight h (lmin cs) (lmax cs - lmin cs)) cs).
Proof. intros H. apply pibb_sum_pos. intros ->; destruct H. Qed.

Lemma pibb_w_mono h cs c c' : 0 <= h -> In c cs -> In c' cs -> c <= c' ->
  pibb_w h cs c' <= pibb_w h cs c.
Proof.
  intros Hh Hc Hc' Hle. unfold pibb_w, Rdiv.
  apply Rmult_le_compat_r.
  { left; apply Rinv_0_lt_compat. now apply pibb_sum_pos' with c. }
  unfold pibb_weight. pose proof (lmin_lmax _ _ Hc). pose proof (lmin_lmax _ _ Hc').
  assert (H1 : - h * (c' - lmin cs) / (lmax cs - lmin cs) <= - h * (c - lmin cs) / (lmax cs - lmin cs)).
  { apply cs_pos_div; lra. }
  destruct H1 as [H1|H1]; [left; now apply exp_increasing|right; now rewrite H1].
Qed.

Lemma pibb_w_strict h cs c c' : 0 < h -> In c cs -> In c' cs -> c < c' ->
  pibb_w h cs c' < pibb_w h cs c.
Proof.
  intros Hh Hc Hc' Hlt. unfold pibb_w, Rdiv.
  apply Rmult_lt_compat_r.
  { apply Rinv_0_lt_compat. now apply pibb_sum_pos' with c. }
  unfold pibb_weight. pose proof (lmin_lmax _ _ Hc). pose proof (lmin_lmax _ _ Hc').
  apply exp_increasing. unfold Rdiv.
  apply Rmult_lt_compat_r; [apply Rinv_0_lt_compat; lra|]. nra.
Qed.

Lemma pibb_monotone costs cs m e w i j :
  ~ rank_method m -> totals costs cs -> 0 <= elit_R e ->
  costs_to_weights argsort costs m e = Ok w ->
  (i < length cs)%nat -> (j < length cs)%nat ->
  (nth i cs 0 <= nth j cs 0 -> nth j w 0 <= nth i w 0) /\
  (nth i cs 0 = nth j cs 0 -> nth j w 0 = nth i w 0) /\
  (0 < elit_R e -> nth i cs 0 < nth j cs 0 -> nth j w 0 < nth i w 0).
Proof.
  intros Hm Hc He Hw Hi Hj.
  assert (costs <> []).
  { intros ->. inversion Hc; subst; cbn in Hi; lia. }
  rewrite (not_rank_pibb argsort costs cs m e) in Hw by auto. injection Hw as <-.
  rewrite !(nth_map_lt _ _ _ 0) by assumption. repeat split.
  - intros H'. apply pibb_w_mono; auto using nth_In.
  - intros ->; reflexivity.
  - intros. apply pibb_w_strict; auto using nth_In.
Qed.

Lemma ctw_rank_form costs cs m e w :
  rank_method m -> totals costs cs -> costs <> [] ->
  costs_to_weights argsort costs m e = Ok w ->
  exists U, by_rank (argsort cs) (length cs) U w /\
    (forall r s, (r <= s)%nat -> U s <= U r).
Proof.
  intros Hm Hc Hne Hw.
  assert (cs <> []) as Hcs by (intros E; apply Hne; now apply (totals_nil_iff _ _ Hc)).
  destruct Hm as [-> | ->].
  - destruct e as [z|r].
    + destruct (Z.eq_dec z 0) as [->|Hz].
      { rewrite (ctw_cem_zero argsort _ _ _ Hc) in Hw by reflexivity. discriminate. }
      destruct (Nat.eq_dec (cem_k z (length cs)) 0) as [E|E].
      * assert (Hbad : (z < 0 /\ Z.of_nat (length cs) <= - z)%Z).
        { unfold cem_k in E. assert (length cs <> 0%nat)
            by (intros El; apply Hcs; now apply length_zero_iff_nil).
          destruct (Z.leb_spec 0 z); lia. }
        rewrite (ctw_cem_nonfinite argsort Ha _ _ _ Hc) in Hw by (auto; lia). discriminate.
      * destruct (cem_weights argsort costs cs z Ha Hc Hz) as (w' & E1 & E2); [lia|].
        rewrite E1 in Hw; injection Hw as ->. eexists; split; [exact E2|].
        intros r s Hrs. set (k := cem_k z (length cs)) in *. cbv beta.
        assert (0 < / INR k) by (apply Rinv_0_lt_compat, lt_0_INR; lia).
        destruct (Nat.ltb_spec r k), (Nat.ltb_spec s k); try lra; lia.
    + destruct (Req_dec r 0) as [->|Hr].
      * rewrite (ctw_cem_zero argsort _ _ _ Hc) in Hw by reflexivity. discriminate.
      * rewrite (ctw_cem_type argsort _ _ _ Hc Hr) in Hw. discriminate.
  - destruct e as [z|r].
    + destruct (Z_le_gt_dec z 0) as [Hz|Hz].
      { rewrite (ctw_cma_nonfinite argsort Ha _ _ _ Hc) in Hw by auto. discriminate. }
      destruct (Z_le_gt_dec z (Z.of_nat (length cs))) as [Hz'|Hz'].
      2:{ rewrite (ctw_cma_index argsort Ha _ _ _ Hc) in Hw by lia. discriminate. }
      destruct (cma_weights argsort costs cs z Ha Hc) as (w' & E1 & E2); [lia|].
      rewrite E1 in Hw; injection Hw as ->. eexists; split; [exact E2|].
      intros r s Hrs. set (S0 := sumn (Z.to_nat z) (cma_V z)). cbv beta.
      assert (0 < S0) as HS.
      { apply sumn_pos; [lia|]. intros; apply cma_V_pos; lia. }
      destruct (Nat.ltb_spec r (Z.to_nat z)), (Nat.ltb_spec s (Z.to_nat z)); try lra; try lia.
      * unfold Rdiv. apply Rmult_le_compat_r; [left; now apply Rinv_0_lt_compat|].
        destruct (Nat.eq_dec r s) as [->|]; [lra|]. left; apply cma_V_decr; lia.
      * left. apply Rdiv_lt_0_compat; [|exact HS]. apply cma_V_pos; lia.
    + rewrite (ctw_cma_type argsort _ _ _ Hc) in Hw. discriminate.
Qed.

Lemma rank_monotone costs cs m e w i j :
  rank_method m -> totals costs cs ->
  costs_to_weights argsort costs m e = Ok w ->
  (i < length cs)%nat -> (j < length cs)%nat ->
  nth i cs 0 < nth j cs 0 -> nth j w 0 <= nth i w 0.
Proof.
  intros Hm Hc Hw Hi Hj Hlt.
  assert (costs <> []).
  { intros ->. inversion Hc; subst; cbn in Hi; lia. }
  destruct (ctw_rank_form costs cs m e w Hm Hc) as (U & [Hlen HU] & Hmono); auto.
  destruct (Ha cs) as [Hp Hs].
  destruct (perm_seq_surj _ _ i Hp Hi) as (r & Hr & <-).
  destruct (perm_seq_surj _ _ j Hp Hj) as (s & Hs' & <-).
  rewrite !HU by assumption. apply Hmono.
  destruct (Nat.le_gt_cases r s); [assumption|].
  specialize (Hs s r ltac:(lia)). lra.
Qed.

(** ** affine invariance of PI-BB *)
Lemma lmin_affine a b cs : 0 < a -> cs <> [] -> lmin (map (fun c => a * c + b) cs) = a * lmin cs + b.
Proof.
  intros Hp Hne. destruct cs as [|x l]; [congruence|]. cbn [map lmin].
  apply rmin_list_unique.
  - change (a * x + b :: map (fun c => a * c + b) l) with (map (fun c => a * c + b) (x :: l)).
    apply in_map_iff. eexists; split; [reflexivity|apply rmin_list_in].
  - change (a * x + b :: map (fun c => a * c + b) l) with (map (fun c => a * c + b) (x :: l)).
    intros y Hy. apply in_map_iff in Hy. destruct Hy as (c & <- & Hc).
    assert (rmin_list x l <= c) by (apply rmin_list_lb; destruct Hc; auto). nra.
Qed.
Lemma lmax_affine a b cs : 0 < a -> cs <> [] -> lmax (map (fun c => a * c + b) cs) = a * lmax cs + b.
Proof.
  intros Hp Hne. destruct cs as [|x l]; [congruence|]. cbn [map lmax].
  apply rmax_list_unique.
  - change (a * x + b :: map (fun c => a * c + b) l) with (map (fun c => a * c + b) (x :: l)).
    apply in_map_iff. eexists; split; [reflexivity|apply rmax_list_in].
  - change (a * x + b :: map (fun c => a * c + b) l) with (map (fun c => a * c + b) (x :: l)).
    intros y Hy. apply in_map_iff in Hy. destruct Hy as (c & <- & Hc).
    assert (c <= rmax_list x l) by (apply rmax_list_ub; destruct Hc; auto). nra.
Qed.

Lemma pibb_weight_affine h a b cs c : 0 < a -> In c cs ->
  pibb_weight h (a * lmin cs + b) (a * lmax cs + b - (a * lmin cs + b)) (a * c + b) =
  pibb_weight h (lmin cs) (lmax cs - lmin cs) c.
Proof.
  intros Hp Hc. unfold pibb_weight. f_equal. pose proof (lmin_lmax _ _ Hc).
  replace (a * lmax cs + b - (a * lmin cs + b)) with (a * (lmax cs - lmin cs)) by ring.
  replace (a * c + b - (a * lmin cs + b)) with (a * (c - lmin cs)) by ring.
  destruct (Req_dec (lmax cs - lmin cs) 0) as [E|E].
  - replace (c - lmin cs) with 0 by lra. unfold Rdiv. ring.
  - field. split; [exact E|lra].
Qed.

Lemma map_scalar_totals (f : R -> R) cs : totals (map (fun c => CScalar (f c)) cs) (map f cs).
Proof. induction cs as [|c cs IH]; constructor; [now left|exact IH]. Qed.

Lemma pibb_affine m e a b cs : ~ rank_method m -> 0 < a ->
  costs_to_weights argsort (map (fun c => CScalar (a * c + b)) cs) m e =
  costs_to_weights argsort (map CScalar cs) m e.
Proof.
  intros Hm Hp. destruct cs as [|x l]; [reflexivity|].
  set (cs := x :: l). assert (cs <> []) as Hne by discriminate.
  rewrite (not_rank_pibb argsort _ (map (fun c => a * c + b) cs) m e); auto using map_scalar_totals.
  2:{ unfold cs; discriminate. }
  rewrite (not_rank_pibb argsort _ cs m e); auto.
  3:{ unfold cs; discriminate. }
  2:{ rewrite <- (map_id cs) at 2. exact (map_scalar_totals (fun c => c) cs). }
  f_equal. rewrite map_map. apply map_ext_in. intros c Hc. unfold pibb_w.
  rewrite lmin_affine, lmax_affine by assumption.
  rewrite pibb_weight_affine by assumption. f_equal. f_equal.
  rewrite map_map. apply map_ext_in. intros c' Hc'. now apply pibb_weight_affine.
Qed.

(** ** elite sets *)
Lemma in_firstn_nth (idx : list nat) k i : In i (firstn k idx) ->
  exists r, (r < k)%nat /\ (r < length idx)%nat /\ nth r idx 0%nat = i.
Proof.
  intros H. destruct (In_nth_lt _ _ 0%nat H) as (r & Hr & E). rewrite firstn_length in Hr.
  exists r. split; [lia|]. split; [lia|]. rewrite <- E.
  rewrite <- (firstn_skipn k idx) at 1. rewrite app_nth1; [reflexivity|]. rewrite firstn_length; lia.
Qed.

Lemma nth_in_firstn (idx : list nat) k r : (r < k)%nat -> (r < length idx)%nat ->
  In (nth r idx 0%nat) (firstn k idx).
Proof.
  intros H1 H2. rewrite <- (firstn_skipn k idx) at 1.
  rewrite app_nth1 by (rewrite firstn_length; lia). apply nth_In. rewrite firstn_length; lia.
Qed.

Lemma NoDup_firstn {A} k (l : list A) : NoDup l -> NoDup (firstn k l).
Proof.
  revert k; induction l as [|x l IH]; intros [|k] H; cbn; try constructor.
  - inversion H as [|? ? Hin Hnd]; subst. intros Hf. apply Hin.
    rewrite <- (firstn_skipn k l). apply in_or_app; now left.
  - apply IH. now inversion H.
Qed.

Lemma cem_elite costs cs mu w :
  totals costs cs -> costs <> [] -> (1 <= mu)%Z ->
  costs_to_weights argsort costs "CEM" (EInt mu) = Ok w ->
  let n := length cs in
  let k := Nat.min (Z.to_nat mu) n in
  exists elite : list nat,
    NoDup elite /\ length elite = k /\ (forall i, In i elite -> (i < n)%nat) /\
    (forall i, (i < n)%nat -> In i elite -> nth i w 0 = / INR k) /\
    (forall i, (i < n)%nat -> ~ In i elite -> nth i w 0 = 0) /\
    (forall i j, (i < n)%nat -> (j < n)%nat -> In i elite -> ~ In j elite ->
       nth i cs 0 <= nth j cs 0).
Proof.
  intros Hc Hne Hmu Hw n k. destruct (Ha cs) as [Hp Hs]. fold n in Hp, Hs.
  assert (Hn : n <> 0%nat).
  { unfold n. intros E. apply length_zero_iff_nil in E. apply Hne. now apply (totals_nil_iff _ _ Hc). }
  assert (Ek : cem_k mu n = k).
  { unfold cem_k, k. destruct (Z.leb_spec 0 mu); [reflexivity|lia]. }
  destruct (cem_weights argsort costs cs mu Ha Hc) as (w' & E1 & [E2 E3]); [lia|fold n; lia|].
  rewrite E1 in Hw; injection Hw as ->. fold n in E2, E3. rewrite Ek in E3.
  assert (Hlen := perm_seq_length _ _ Hp).
  exists (firstn k (argsort cs)). repeat split.
  - apply NoDup_firstn. now apply perm_seq_nodup with n.
  - rewrite firstn_length. unfold k; lia.
  - intros i Hi. destruct (in_firstn_nth _ _ _ Hi) as (r & Hr & Hr' & <-).
    apply perm_seq_nth_lt; [exact Hp|lia].
  - intros i _ Hi. destruct (in_firstn_nth _ _ _ Hi) as (r & Hr & Hr' & <-).
    rewrite E3 by lia. destruct (Nat.ltb_spec r k); [reflexivity|lia].
  - intros i Hi Hni. destruct (perm_seq_surj _ _ i Hp Hi) as (r & Hr & <-).
    rewrite E3 by lia. destruct (Nat.ltb_spec r k) as [Hlt|]; [|reflexivity].
    exfalso; apply Hni. apply nth_in_firstn; lia.
  - intros i j _ Hj Hi Hnj. destruct (in_firstn_nth _ _ _ Hi) as (r & Hr & Hr' & <-).
    destruct (perm_seq_surj _ _ j Hp Hj) as (s & Hs' & <-).
    apply Hs. split; [|lia]. destruct (Nat.le_gt_cases r s); [assumption|].
    exfalso; apply Hnj, nth_in_firstn; lia.
Qed.

Lemma cma_elite costs cs mu w :
  totals costs cs -> (1 <= mu <= Z.of_nat (length cs))%Z ->
  costs_to_weights argsort costs "CMA-ES" (EInt mu) = Ok w ->
  let n := length cs in
  let v := fun r : nat => ln (IZR mu + 1/2) - ln (INR (S r)) in
  exists order : list nat, sorts cs order /\ length w = n /\
    forall r, (r < n)%nat ->
      nth (nth r order 0%nat) w 0 =
      if Nat.ltb r (Z.to_nat mu) then v r / sumn (Z.to_nat mu) v else 0.
Proof.
  intros Hc Hmu Hw n v.
  destruct (cma_weights argsort costs cs mu Ha Hc Hmu) as (w' & E1 & [E2 E3]).
  rewrite E1 in Hw; injection Hw as ->.
  assert (Hv : forall r, v r = cma_V mu r).
  { intros r. unfold v, cma_V. now rewrite S_INR. }
  exists (argsort cs). split; [apply Ha|]. split; [exact E2|]. intros r Hr.
  rewrite E3 by exact Hr. rewrite Hv. rewrite (sumn_ext _ v (cma_V mu)) by (intros; apply Hv).
  reflexivity.
Qed.

(** ** distinct costs: the weight is a function of the number of strictly better samples *)
Definition count_lt (c : R) (cs : list R) : nat :=
  length (filter (fun x => if Rlt_dec x c then true else false) cs).

Lemma count_lt_perm c cs cs' : Permutation cs cs' -> count_lt c cs = count_lt c cs'.
Proof.
  unfold count_lt. induction 1; cbn.
  - reflexivity.
  - destruct (Rlt_dec x c); cbn; auto.
  - destruct (Rlt_dec x c), (Rlt_dec y c); reflexivity.
  - congruence.
Qed.

Lemma count_lt_map f c cs : (forall x y, x < y <-> f x < f y) ->
  count_lt (f c) (map f cs) = count_lt c cs.
Proof.
  intros Hf. unfold count_lt. induction cs as [|x cs IH]; cbn; [reflexivity|].
  destruct (Rlt_dec (f x) (f c)) as [H|H], (Rlt_dec x c) as [H'|H']; cbn; auto.
  - apply Hf in H; contradiction.
  - apply Hf in H'; contradiction.
Qed.

Lemma count_lt_sorted cs idx r : NoDup cs -> sorts cs idx -> (r < length cs)%nat ->
  count_lt (nth (nth r idx 0%nat) cs 0) cs = r.
Proof.
  intros Hnd [Hp Hs] Hr. set (n := length cs) in *.
  set (c := nth (nth r idx 0%nat) cs 0).
  assert (Hpc : Permutation cs (map (fun s => nth (nth s idx 0%nat) cs 0) (seq 0 n))).
  { rewrite (list_eq_map_nth 0 cs) at 1. fold n.
    rewrite <- (map_map (fun s => nth s idx 0%nat) (fun i => nth i cs 0)).
    apply Permutation_map. symmetry.
    rewrite <- (perm_seq_length _ _ Hp) at 1. now rewrite <- list_eq_map_nth. }
  rewrite (count_lt_perm _ _ _ Hpc).
  unfold count_lt.
  assert (Hstrict : forall s s', (s < s' < n)%nat ->
            nth (nth s idx 0%nat) cs 0 < nth (nth s' idx 0%nat) cs 0).
  { intros s s' Hss. destruct (Hs s s' ltac:(lia)) as [Hlt|E]; [exact Hlt|].
    exfalso. assert (Hi : nth s idx 0%nat = nth s' idx 0%nat).
    { apply (proj1 (NoDup_nth cs 0) Hnd); auto; apply perm_seq_nth_lt; auto; lia. }
    apply (perm_seq_inj idx n) in Hi; auto; lia. }
  clear Hpc.
  assert (G : forall k, (k <= n)%nat ->
    length (filter (fun x => if Rlt_dec x c then true else false)
      (map (fun s => nth (nth s idx 0%nat) cs 0) (seq 0 k))) = Nat.min k r).
  { induction k as [|k IH]; intros Hk; [reflexivity|].
    rewrite seq_S, map_app, filter_app, app_length, IH by lia. cbn [map filter plus].
    unfold c. destruct (Rlt_dec _ _) as [H|H]; cbn [length].
    - destruct (Nat.lt_ge_cases k r); [lia|]. exfalso.
      destruct (Nat.eq_dec k r) as [->|]; [lra|]. pose proof (Hstrict r k ltac:(lia)). lra.
    - destruct (Nat.lt_ge_cases k r); [|lia]. exfalso. apply H, Hstrict; lia. }
  rewrite G by lia. lia.
Qed.

(** the weight as a function of the rank, the method, the eliteness and the number of samples *)
Definition rank_U (m : string) (e : elit) (n : nat) (r : nat) : R :=
  match e with
  | EReal _ => 0
  | EInt z =>
    if String.eqb m "CEM" then (if Nat.ltb r (cem_k z n) then / INR (cem_k z n) else 0)
    else (if Nat.ltb r (Z.to_nat z) then cma_V z r / sumn (Z.to_nat z) (cma_V z) else 0)
  end.

Lemma ctw_rank_U costs cs m e w :
  rank_method m -> totals costs cs -> costs <> [] ->
  costs_to_weights argsort costs m e = Ok w ->
  by_rank (argsort cs) (length cs) (rank_U m e (length cs)) w.
Proof.
  intros Hm Hc Hne Hw.
  assert (cs <> []) as Hcs by (intros E; apply Hne; now apply (totals_nil_iff _ _ Hc)).
  destruct Hm as [-> | ->].
  - destruct e as [z|r].
    + destruct (Z.eq_dec z 0) as [->|Hz].
      { rewrite (ctw_cem_zero argsort _ _ _ Hc) in Hw by reflexivity. discriminate. }
      destruct (Nat.eq_dec (cem_k z (length cs)) 0) as [E|E].
      * assert (Hbad : (z < 0 /\ Z.of_nat (length cs) <= - z)%Z).
        { unfold cem_k in E. assert (length cs <> 0%nat)
            by (intros El; apply Hcs; now apply length_zero_iff_nil).
          destruct (Z.leb_spec 0 z); lia. }
        rewrite (ctw_cem_nonfinite argsort Ha _ _ _ Hc) in Hw by (auto; lia). discriminate.
      * destruct (cem_weights argsort costs cs z Ha Hc Hz) as (w' & E1 & E2); [lia|].
        rewrite E1 in Hw; injection Hw as ->. exact E2.
    + destruct (Req_dec r 0) as [->|Hr].
      * rewrite (ctw_cem_zero argsort _ _ _ Hc) in Hw by reflexivity. discriminate.
      * rewrite (ctw_cem_type argsort _ _ _ Hc Hr) in Hw. discriminate.
  - destruct e as [z|r].
    + destruct (Z_le_gt_dec z 0) as [Hz|Hz].
      { rewrite (ctw_cma_nonfinite argsort Ha _ _ _ Hc) in Hw by auto. discriminate. }
      destruct (Z_le_gt_dec z (Z.of_nat (length cs))) as [Hz'|Hz'].
      2:{ rewrite (ctw_cma_index argsort Ha _ _ _ Hc) in Hw by lia. discriminate. }
      destruct (cma_weights argsort costs cs z Ha Hc) as (w' & E1 & E2); [lia|].
      rewrite E1 in Hw; injection Hw as ->. exact E2.
    + rewrite (ctw_cma_type argsort _ _ _ Hc) in Hw. discriminate.
Qed.

Lemma ctw_rank_distinct costs cs m e w :
  rank_method m -> totals costs cs -> costs <> [] -> NoDup cs ->
  costs_to_weights argsort costs m e = Ok w ->
  w = map (fun c => rank_U m e (length cs) (count_lt c cs)) cs.
Proof.
  intros Hm Hc Hne Hnd Hw. destruct (ctw_rank_U _ _ _ _ _ Hm Hc Hne Hw) as [Hlen HU].
  apply (nth_ext _ _ 0 0); [now rewrite map_length|]. intros i Hi. rewrite Hlen in Hi.
  rewrite (nth_map_lt _ _ _ 0) by exact Hi.
  destruct (Ha cs) as [Hp Hs].
  destruct (perm_seq_surj _ _ i Hp Hi) as (r & Hr & <-).
  rewrite HU by exact Hr. f_equal. symmetry. apply count_lt_sorted; auto.
Qed.

(** Success and failure depend only on the number of costs. *)
Lemma ctw_outcome_shape costs costs' m e :
  ~ In (CVec []) costs -> ~ In (CVec []) costs' -> length costs = length costs' ->
  (exists w, costs_to_weights argsort costs m e = Ok w) ->
  (exists w, costs_to_weights argsort costs' m e = Ok w).
Proof.
  intros H1 H2 Hl [w Hw].
  assert (Hnil : costs = [] <-> costs' = []).
  { split; intros E; subst; [destruct costs'|destruct costs]; auto; discriminate. }
  destruct (costs_to_weights argsort costs' m e) as [w'|x] eqn:E; [eauto|]. exfalso.
  pose proof (weights_failures argsort Ha costs m e) as F1.
  pose proof (weights_failures argsort Ha costs' m e) as F2.
  rewrite Hw in F1. rewrite E in F2. unfold failure_table in *.
  destruct F1 as (A1 & A2 & A3 & A4 & A5 & _), F2 as (B1 & B2 & B3 & B4 & B5 & B6).
  rewrite <- Hl in *.
  specialize (B6 x eq_refl).
  cbn in B6. destruct B6 as [<-|[<-|[<-|[<-|[<-|[]]]]]].
  - destruct (proj1 B1 eq_refl) as [|B]; [contradiction|].
    discriminate (proj2 A1 (or_intror B)).
  - destruct (proj1 B2 eq_refl) as [B B']. apply Hnil in B. discriminate (proj2 A2 (conj B B')).
  - destruct (proj1 B3 eq_refl) as [B B']. discriminate (proj2 A3 (conj H1 B')).
  - destruct (proj1 B4 eq_refl) as [B B']. discriminate (proj2 A4 (conj H1 B')).
  - destruct (proj1 B5 eq_refl) as [B [B' B'']].
    assert (costs <> []) by (intros X; apply Hnil in X; contradiction).
    assert (X : Ok w = Err NonFinite) by (apply A5; auto). discriminate X.
Qed.

Lemma ctw_err_shape costs costs' m e :
  ~ In (CVec []) costs -> ~ In (CVec []) costs' -> length costs = length costs' ->
  forall x, costs_to_weights argsort costs m e = Err x -> costs_to_weights argsort costs' m e = Err x.
Proof.
  intros H1 H2 Hl x E.
  assert (Hnil : costs = [] <-> costs' = []).
  { split; intros E'; subst; [destruct costs'|destruct costs]; auto; discriminate. }
  pose proof (weights_failures argsort Ha costs m e) as F1.
  pose proof (weights_failures argsort Ha costs' m e) as F2.
  rewrite E in F1. unfold failure_table in *.
  destruct F1 as (A1 & A2 & A3 & A4 & A5 & A6), F2 as (B1 & B2 & B3 & B4 & B5 & B6).
  rewrite <- Hl in *. specialize (A6 x eq_refl).
  cbn in A6. destruct A6 as [<-|[<-|[<-|[<-|[<-|[]]]]]].
  - apply B1. destruct (proj1 A1 eq_refl) as [|A]; [contradiction|now right].
  - apply B2. destruct (proj1 A2 eq_refl) as [A A']. split; [now apply Hnil|exact A'].
  - apply B3. destruct (proj1 A3 eq_refl) as [A A']. now split.
  - apply B4. destruct (proj1 A4 eq_refl) as [A A']. now split.
  - apply B5. destruct (proj1 A5 eq_refl) as (A & A' & A''). repeat split; auto.
    intros X; apply Hnil in X; contradiction.
Qed.

Lemma scalar_no_empty cs : ~ In (CVec []) (map CScalar cs).
Proof. intros H. apply in_map_iff in H. destruct H as (x & E & _). discriminate. Qed.

Lemma scalar_totals cs : totals (map CScalar cs) cs.
Proof. rewrite <- (map_id cs) at 2. exact (map_scalar_totals (fun c => c) cs). Qed.

Lemma rank_monotone_invariant m e (f : R -> R) cs :
  rank_method m -> NoDup cs -> (forall x y, x < y <-> f x < f y) ->
  costs_to_weights argsort (map (fun c => CScalar (f c)) cs) m e =
  costs_to_weights argsort (map CScalar cs) m e.
Proof.
  intros Hm Hnd Hf. destruct cs as [|x l]; [reflexivity|]. set (cs := x :: l) in *.
  assert (Hinj : forall a b, f a = f b -> a = b).
  { intros a b E. destruct (Rtotal_order a b) as [H|[H|H]]; auto; apply Hf in H; lra. }
  assert (Hnd' : NoDup (map f cs)).
  { clear -Hnd Hinj. induction Hnd as [|a l' Hin Hnd IH]; cbn; constructor; auto.
    intros H. apply in_map_iff in H. destruct H as (b & E & Hb). apply Hinj in E; subst; auto. }
  assert (N1 : ~ In (CVec []) (map (fun c => CScalar (f c)) cs)).
  { rewrite <- (map_map f CScalar). apply scalar_no_empty. }
  destruct (costs_to_weights argsort (map CScalar cs) m e) as [w|er] eqn:E.
  - destruct (ctw_outcome_shape (map CScalar cs) (map (fun c => CScalar (f c)) cs) m e) as [w' E'];
      auto using scalar_no_empty; [now rewrite !map_length|eauto|].
    rewrite E'. f_equal.
    rewrite (ctw_rank_distinct _ _ _ _ _ Hm (scalar_totals cs) ltac:(discriminate) Hnd E).
    rewrite (ctw_rank_distinct _ _ _ _ _ Hm (map_scalar_totals f cs) ltac:(discriminate) Hnd' E').
    rewrite map_map, map_length. apply map_ext. intros c. now rewrite count_lt_map.
  - eapply ctw_err_shape; [| | |exact E]; auto using scalar_no_empty. now rewrite !map_length.
Qed.

(** ** only the first components matter *)
Lemma same_totals costs costs' m e :
  Forall2 (fun c c' => exists r, has_total c r /\ has_total c' r) costs costs' ->
  costs_to_weights argsort costs m e = costs_to_weights argsort costs' m e.
Proof.
  intros H. unfold costs_to_weights.
  assert (mapM first_cost costs = mapM first_cost costs') as ->; [|reflexivity].
  induction H as [|c c' l l' (r & H1 & H2) _ IH]; [reflexivity|].
  cbn. apply first_cost_total in H1, H2. rewrite H1, H2. cbn. now rewrite IH.
Qed.

(** ** permutations *)
(** the weights as a pointwise function of the cost, invariant under permutation *)
Definition ctw_fun (m : string) (e : elit) (cs : list R) (c : R) : R :=
  if rank_dec m then rank_U m e (length cs) (count_lt c cs) else pibb_w (elit_R e) cs c.

Lemma lmin_perm cs cs' : Permutation cs cs' -> lmin cs = lmin cs'.
Proof.
  intros H. destruct cs as [|x l]; [apply Permutation_nil in H; now subst|].
  destruct cs' as [|x' l']; [symmetry in H; apply Permutation_nil in H; discriminate|].
  cbn. apply rmin_list_unique.
  - apply (Permutation_in _ (Permutation_sym H)), rmin_list_in.
  - intros y Hy. apply (Permutation_in _ H) in Hy. apply rmin_list_lb. destruct Hy; auto.
Qed.
Lemma lmax_perm cs cs' : Permutation cs cs' -> lmax cs = lmax cs'.
Proof.
  intros H. destruct cs as [|x l]; [apply Permutation_nil in H; now subst|].
  destruct cs' as [|x' l']; [symmetry in H; apply Permutation_nil in H; discriminate|].
  cbn. apply rmax_list_unique.
  - apply (Permutation_in _ (Permutation_sym H)), rmax_list_in.
  - intros y Hy. apply (Permutation_in _ H) in Hy. apply rmax_list_ub. destruct Hy; auto.
Qed.

Lemma ctw_fun_perm m e cs cs' c : Permutation cs cs' -> ctw_fun m e cs c = ctw_fun m e cs' c.
Proof.
  intros H. unfold ctw_fun. destruct (rank_dec m).
  - now rewrite (Permutation_length H), (count_lt_perm _ _ _ H).
  - unfold pibb_w. rewrite (lmin_perm _ _ H), (lmax_perm _ _ H). f_equal.
    apply rsum_perm. now apply Permutation_map.
Qed.

Lemma ctw_fun_correct costs cs m e w :
  totals costs cs -> costs <> [] -> (rank_method m -> NoDup cs) ->
  costs_to_weights argsort costs m e = Ok w -> w = map (ctw_fun m e cs) cs.
Proof.
  intros Hc Hne Hnd Hw. unfold ctw_fun. destruct (rank_dec m) as [Hm|Hm].
  - now apply ctw_rank_distinct with (1 := Hm) (costs := costs); auto.
  - rewrite (not_rank_pibb argsort _ cs) in Hw by auto. now injection Hw as <-.
Qed.

End Weights.

Lemma combine_map_snd {A B C} (g : B -> C) (ps : list (A * B)) :
  combine (map g (map snd ps)) (map fst ps) = map (fun p => (g (snd p), fst p)) ps.
Proof. induction ps as [|[a b] ps IH]; cbn; [reflexivity|now rewrite IH]. Qed.
