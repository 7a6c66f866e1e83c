(** Proofs: sigmoid systems. *)
From Verif Require Import Base BaseLemmas DynModel DynSpec DynProofs.
From Coquelicot Require Import Coquelicot.

Section Sigmoid.
Variable s : ssys.
Let n := length (g_init s).
Hypothesis Hr : par_ok (g_rate s) n.
Hypothesis Hq : par_ok (g_infl s) n.
Let r i := par_val (g_rate s) i.
Let q i := par_val (g_infl s) i.
Let x0 i := nth i (g_init s) 0.
Definition sB i := exp (par_val (g_rate s) i * (g_tau s * par_val (g_infl s) i)).
Definition sK i := nth i (g_init s) 0 * (1 + sB i).
Definition sKs := map sK (seq 0 (length (g_init s))).
Definition sX t := map (fun i => sK i / (1 + sB i * exp (- par_val (g_rate s) i * t))) (seq 0 (length (g_init s))).
Definition sXd t :=
  map (fun i => sK i * par_val (g_rate s) i * sB i / Rsqr (1 + sB i * exp (- par_val (g_rate s) i * t))
                * exp (- par_val (g_rate s) i * t)) (seq 0 (length (g_init s))).

Lemma sB_pos i : 0 < sB i.
Proof. apply exp_pos. Qed.
Lemma den_pos i t : 0 < 1 + sB i * exp (- r i * t).
Proof. pose proof (sB_pos i). pose proof (exp_pos (- r i * t)). nra. Qed.

Lemma s_ks_ok : s_ks s = Ok sKs.
Proof.
  unfold s_ks, sKs. apply mapM_pure. intros i Hi. apply in_seq in Hi.
  rewrite (par_at_ok _ n) by (trivial; lia). cbn [bind].
  rewrite (par_at_ok _ n) by (trivial; lia). cbn [bind].
  rewrite (nth_res_ok _ _ 0) by lia. cbn [bind]. unfold sK, sB. f_equal. f_equal. f_equal.
  rewrite Ropp_mult_distr_l_reverse, exp_Ropp. field. apply Rgt_not_eq, exp_pos.
Qed.

Lemma sKs_length : length sKs = n.
Proof. unfold sKs; now rewrite map_length, seq_length. Qed.

Lemma sK_nonzero i : x0 i <> 0 -> sK i <> 0.
Proof.
  intros H. pose proof (sB_pos i). unfold sK. apply Rmult_integral_contrapositive_currified; [exact H|lra].
Qed.

Hypothesis H0 : forall i, (i < n)%nat -> x0 i <> 0.

Lemma s_diffeq_ok x : length x = n ->
  s_diffeq s x = Ok (map (fun i => r i * nth i x 0 * (1 - nth i x 0 / sK i)) (seq 0 n)).
Proof.
  intros Hx. unfold s_diffeq. rewrite s_ks_ok. cbn [bind]. unfold s_diffeq_k.
  replace (existsb _ sKs) with false.
  2:{ symmetry. apply not_true_is_false. intros E. apply existsb_exists in E. destruct E as [k [Hk Ek]].
      unfold sKs in Hk. apply in_map_iff in Hk. destruct Hk as [i [<- Hi]]. apply in_seq in Hi.
      destruct (Req_EM_T (sK i) 0) as [E|E]; [|discriminate]. revert E. apply sK_nonzero. apply H0. unfold n; lia. }
  rewrite vop_same by (rewrite sKs_length; trivial). cbn [bind].
  rewrite (map2_seq _ _ _ n) by (trivial; apply sKs_length).
  rewrite (pop_seq _ _ _ n) by trivial. cbn [bind].
  rewrite vop_same by (now rewrite !map_length, !seq_length).
  rewrite (map2_seq _ _ _ n) by (now rewrite ?map_length, seq_length).
  f_equal. apply map_ext_in. intros i Hi. apply in_seq in Hi.
  rewrite nth_map_seq by lia. rewrite map_map. rewrite nth_map_seq by lia.
  unfold sKs. rewrite nth_map_seq by (unfold n in Hi; lia). reflexivity.
Qed.

Lemma s_ana_ok ts : s_ana s ts = Ok (map sX ts, map sXd ts).
Proof.
  unfold s_ana. rewrite s_ks_ok. cbn [bind]. unfold s_ana_k.
  rewrite (mapM_pure _ (fun i => (r i, sK i, sB i))).
  - cbn [bind]. f_equal. f_equal; apply map_ext; intros t; rewrite map_map; reflexivity.
  - intros i Hi. apply in_seq in Hi.
    rewrite (par_at_ok _ n) by (trivial; unfold n; lia). cbn [bind].
    rewrite (nth_res_ok sKs _ 0) by (rewrite sKs_length; unfold n; lia). cbn [bind].
    rewrite (nth_res_ok _ _ 0) by lia. cbn [bind].
    assert (Hi0 : x0 i <> 0) by (apply H0; unfold n; lia).
    unfold x0 in Hi0. destruct (Req_EM_T (nth i (g_init s) 0) 0); [contradiction|].
    unfold sKs. rewrite nth_map_seq by lia. unfold sK. f_equal. f_equal. field. trivial.
Qed.

Lemma nth_sX t i : (i < n)%nat -> nth i (sX t) 0 = sK i / (1 + sB i * exp (- r i * t)).
Proof. intros; unfold sX; now rewrite nth_map_seq. Qed.
Lemma nth_sXd t i : (i < n)%nat ->
  nth i (sXd t) 0 = sK i * r i * sB i / Rsqr (1 + sB i * exp (- r i * t)) * exp (- r i * t).
Proof. intros; unfold sXd; now rewrite nth_map_seq. Qed.

Lemma s_solves : solves (s_diffeq s) (s_ana s) (g_init s) sX sXd.
Proof.
  repeat split.
  - intros ts; apply s_ana_ok.
  - unfold sX. etransitivity; [|symmetry; apply (list_eq_map_nth 0)]. apply map_ext_in. intros i Hi. apply in_seq in Hi.
    rewrite Rmult_0_r, exp_0. unfold sK. pose proof (sB_pos i). field. lra.
  - intros t; unfold sX; now rewrite map_length, seq_length.
  - intros t; unfold sXd; now rewrite map_length, seq_length.
  - intros t d Hd. unfold comp. apply is_derive_Reals.
    apply (is_derive_ext (fun t => sK d / (1 + sB d * exp (- r d * t)))).
    { intros u; now rewrite nth_sX. }
    rewrite nth_sXd by trivial. pose proof (den_pos d t).
    auto_derive.
    + apply Rgt_not_eq. exact H.
    + unfold Rsqr. field. apply Rgt_not_eq. exact H.
  - intros t. rewrite s_diffeq_ok by (unfold sX; now rewrite map_length, seq_length).
    unfold sXd. f_equal. apply map_ext_in. intros i Hi. apply in_seq in Hi.
    rewrite nth_sX by lia. fold (r i). pose proof (den_pos i t). pose proof (sK_nonzero i (H0 i (proj2 Hi))).
    unfold Rsqr. field. split; [apply Rgt_not_eq; exact H|exact H1].
Qed.

(** the capacity is an equilibrium *)
Lemma sK_equilibrium : s_diffeq s sKs = Ok (zeros n).
Proof.
  rewrite s_diffeq_ok by apply sKs_length. f_equal. unfold zeros.
  rewrite (list_eq_map_nth 0 (repeat 0 n)), repeat_length.
  apply map_ext_in. intros i Hi. apply in_seq in Hi. rewrite nth_repeat.
  unfold sKs. rewrite nth_map_seq by (unfold n in Hi; lia).
  pose proof (sK_nonzero i (H0 i (proj2 Hi))). field. trivial.
Qed.

Lemma s_half i : (i < n)%nat -> comp sX i (g_tau s * q i) = nth i sKs 0 / 2.
Proof.
  intros Hi. unfold comp. rewrite nth_sX by trivial. unfold sKs. rewrite nth_map_seq by (unfold n in Hi; lia).
  unfold sB at 1. rewrite <- exp_plus. fold (q i). fold (r i).
  replace (r i * (g_tau s * q i) + - r i * (g_tau s * q i)) with 0 by ring. rewrite exp_0. field.
Qed.

(** the rate of change is largest in magnitude at the inflection time *)
Lemma s_max_rate i t : (i < n)%nat -> Rabs (comp sXd i t) <= Rabs (comp sXd i (g_tau s * q i)).
Proof.
  intros Hi. unfold comp. rewrite !nth_sXd by trivial.
  assert (E : forall u, sK i * r i * sB i / (1 + sB i * exp (- r i * u))² * exp (- r i * u)
              = (sK i * r i) * (sB i * exp (- r i * u) / (1 + sB i * exp (- r i * u))²)).
  { intros u. unfold Rsqr. field. apply Rgt_not_eq, den_pos. }
  rewrite !E, !(Rabs_mult (sK i * r i)). apply Rmult_le_compat_l; [apply Rabs_pos|].
  assert (Q : forall w, 0 < w -> 0 < w / (1 + w)² <= / 4).
  { intros w Hw. split; [apply Rdiv_lt_0_compat; [trivial|]; apply Rlt_0_sqr; lra|].
    apply (Rmult_le_reg_r (1 + w)²); [apply Rlt_0_sqr; lra|].
    unfold Rdiv. rewrite Rmult_assoc, Rinv_l by (apply Rgt_not_eq, Rlt_0_sqr; lra). unfold Rsqr.
    pose proof (Rle_0_sqr (w - 1)). unfold Rsqr in *. lra. }
  assert (P : forall u, 0 < sB i * exp (- r i * u)) by (intros; apply Rmult_lt_0_compat; apply exp_pos).
  rewrite !Rabs_pos_eq by (left; apply Q, P).
  replace (sB i * exp (- r i * (g_tau s * q i))) with 1.
  - pose proof (Q _ (P t)). unfold Rsqr at 2. lra.
  - unfold sB. rewrite <- exp_plus. fold (r i). fold (q i). rewrite <- exp_0 at 1. f_equal. ring.
Qed.

Lemma s_between i t : (i < n)%nat -> 0 < x0 i -> 0 < comp sX i t < nth i sKs 0.
Proof.
  intros Hi Hp. unfold comp. rewrite nth_sX by trivial. unfold sKs. rewrite nth_map_seq by (unfold n in Hi; lia).
  pose proof (den_pos i t). pose proof (sB_pos i). pose proof (exp_pos (- r i * t)).
  assert (0 < sK i) by (unfold sK; apply Rmult_lt_0_compat; [exact Hp|lra]).
  split; [now apply Rdiv_lt_0_compat|].
  apply (Rmult_lt_reg_r (1 + sB i * exp (- r i * t))); [trivial|].
  unfold Rdiv. rewrite Rmult_assoc, Rinv_l by lra. 
  assert (0 < sB i * exp (- r i * t)) by now apply Rmult_lt_0_compat. nra.
Qed.

(** growing systems converge to the capacity, shrinking ones to 0 *)
Lemma s_grows i : (i < n)%nat -> 0 < r i -> tends_to (comp sX i) (nth i sKs 0).
Proof.
  intros Hi Hp eps He. set (c := Rabs (sK i) * sB i + 1).
  assert (Hc : 0 < c) by (unfold c; pose proof (Rabs_pos (sK i)); pose proof (sB_pos i); nra).
  destruct (exp_tends (r i) Hp (eps / c)) as [T [_ HT]]; [now apply Rdiv_lt_0_compat|].
  exists T. intros t Ht. specialize (HT t Ht).
  unfold comp. rewrite nth_sX by trivial. unfold sKs. rewrite nth_map_seq by (unfold n in Hi; lia).
  pose proof (den_pos i t). pose proof (exp_pos (- r i * t)). pose proof (sB_pos i).
  replace (sK i / (1 + sB i * exp (- r i * t)) - sK i)
    with (- (sK i * (sB i * exp (- r i * t))) * / (1 + sB i * exp (- r i * t))) by (field; lra).
  rewrite Rabs_mult, Rabs_Ropp, Rabs_mult, (Rabs_pos_eq (sB i * _)), (Rabs_pos_eq (/ _)).
  2:{ left; now apply Rinv_0_lt_compat. } 2:{ left; now apply Rmult_lt_0_compat. }
  assert (/ (1 + sB i * exp (- r i * t)) <= 1).
  { rewrite <- Rinv_1. apply Rinv_le_contravar; nra. }
  assert (Rabs (sK i) * (sB i * exp (- r i * t)) < eps).
  { apply (Rmult_lt_compat_l c) in HT; [|trivial].
    replace (c * (eps / c)) with eps in HT by (field; lra). unfold c in HT. nra. }
  pose proof (Rabs_pos (sK i)).
  assert (0 <= Rabs (sK i) * (sB i * exp (- r i * t))) by (apply Rmult_le_pos; nra).
  eapply Rle_lt_trans; [|exact H4]. rewrite <- Rmult_1_r. apply Rmult_le_compat_l; trivial.
Qed.

Lemma s_shrinks i : (i < n)%nat -> r i < 0 -> tends_to (comp sX i) 0.
Proof.
  intros Hi Hp eps He. set (c := Rabs (sK i) / sB i + 1).
  assert (0 <= Rabs (sK i) / sB i).
  { apply Rmult_le_pos; [apply Rabs_pos|]. left; apply Rinv_0_lt_compat, sB_pos. }
  assert (Hc : 0 < c) by (unfold c; lra).
  destruct (exp_tends (- r i)) with (eps := eps / c) as [T [_ HT]]; [lra|now apply Rdiv_lt_0_compat|].
  exists T. intros t Ht. specialize (HT t Ht). rewrite Ropp_involutive in HT.
  unfold comp. rewrite nth_sX by trivial.
  pose proof (den_pos i t). pose proof (exp_pos (- r i * t)). pose proof (sB_pos i). pose proof (exp_pos (r i * t)).
  assert (E : exp (r i * t) * exp (- r i * t) = 1).
  { rewrite <- exp_plus, <- exp_0. f_equal. ring. }
  rewrite Rminus_0_r. unfold Rdiv. rewrite Rabs_mult, (Rabs_pos_eq (/ _)) by (left; now apply Rinv_0_lt_compat).
  assert (L : / (1 + sB i * exp (- r i * t)) <= / sB i * exp (r i * t)).
  { replace (/ sB i * exp (r i * t)) with (/ (sB i * exp (- r i * t))).
    - apply Rinv_le_contravar; [now apply Rmult_lt_0_compat|lra].
    - rewrite Rinv_mult. f_equal. apply (Rmult_eq_reg_r (exp (- r i * t))); [|lra].
      rewrite Rinv_l by lra. now rewrite E. }
  eapply Rle_lt_trans; [apply Rmult_le_compat_l; [apply Rabs_pos|exact L]|].
  rewrite <- Rmult_assoc. apply (Rmult_lt_compat_l c) in HT; [|trivial].
  replace (c * (eps / c)) with eps in HT by (field; lra). unfold c, Rdiv in *. nra.
Qed.
End Sigmoid.

(** ** for_gating *)
Lemma gating_d_pos : 0 < gating_d.
Proof. unfold gating_d; lra. Qed.

Lemma for_gating_ok tau ratio n : 0 < tau -> 0 < ratio < 1 ->
  exists s, for_gating tau ratio n = Ok s /\ g_init s = repeat 1 n /\ g_tau s = tau /\
    exists rate infl, g_rate s = PScal rate /\ g_infl s = PScal infl /\ rate < 0 /\
      exp (rate * (tau * infl)) = gating_d /\ exp (- rate * tau) = ((1 + gating_d) / ratio - 1) / gating_d.
Proof.
  intros Ht Hr. pose proof gating_d_pos as Hd. unfold for_gating. set (d := gating_d) in *.
  set (arg := ((1 + d) / ratio - 1) / d).
  assert (Ha : 1 < arg).
  { unfold arg. apply (Rmult_lt_reg_r (d * ratio)); [nra|].
    replace (((1 + d) / ratio - 1) / d * (d * ratio)) with ((1 + d) - ratio) by (field; lra). nra. }
  destruct (Req_EM_T ratio 0); [lra|]. destruct (Rle_dec arg 0); [lra|].
  destruct (Req_EM_T tau 0); [lra|].
  assert (Hln : 0 < ln arg) by (rewrite <- ln_1; apply ln_increasing; lra).
  set (rate := - ln arg / tau).
  assert (Hrate : rate < 0).
  { unfold rate, Rdiv. rewrite Ropp_mult_distr_l_reverse. apply Ropp_lt_gt_0_contravar.
    apply Rmult_lt_0_compat; [trivial|now apply Rinv_0_lt_compat]. }
  destruct (Req_EM_T rate 0); [lra|].
  eexists. split; [reflexivity|]. cbn. split; [reflexivity|]. split; [reflexivity|].
  eexists _, _. split; [reflexivity|]. split; [reflexivity|]. split; [exact Hrate|]. split.
  - replace (rate * (tau * (- ln (1 / d) / rate / tau))) with (- ln (1 / d)) by (field; lra).
    unfold Rdiv. rewrite Rmult_1_l, ln_Rinv, Ropp_involutive by trivial. now apply exp_ln.
  - unfold rate. replace (- (- ln arg / tau) * tau) with (ln arg) by (field; lra). apply exp_ln. lra.
Qed.

Lemma gating_contract tau ratio n : 0 < tau -> 0 < ratio < 1 ->
  exists s X Xd, for_gating tau ratio n = Ok s /\ solves (s_diffeq s) (s_ana s) (repeat 1 n) X Xd /\
    forall i, (i < n)%nat ->
      comp X i 0 = 1 /\ comp X i tau = ratio /\ (forall a b, a < b -> comp X i b < comp X i a) /\
      (forall t, 0 < comp X i t) /\ tends_to (comp X i) 0.
Proof.
  intros Ht Hr. destruct (for_gating_ok tau ratio n Ht Hr) as (s & Es & Ei & Et & rate & infl & Er & Eq & Hrate & E1 & E2).
  pose proof gating_d_pos as Hd.
  assert (Hn : length (g_init s) = n) by (rewrite Ei; apply repeat_length).
  assert (Hx : forall i, (i < n)%nat -> nth i (g_init s) 0 = 1).
  { intros i Hi. rewrite Ei. clear - Hi. revert i Hi; induction n; intros [|i] Hi; cbn; try lia; [reflexivity|].
    apply IHn. lia. }
  assert (P1 : par_ok (g_rate s) (length (g_init s))) by (rewrite Er; exact I).
  assert (P2 : par_ok (g_infl s) (length (g_init s))) by (rewrite Eq; exact I).
  assert (P3 : forall i, (i < length (g_init s))%nat -> nth i (g_init s) 0 <> 0).
  { intros i Hi. rewrite Hx by lia. lra. }
  exists s, (sX s), (sXd s). split; [exact Es|]. split.
  { rewrite <- Ei. apply s_solves; trivial. }
  intros i Hi.
  assert (EB : sB s i = gating_d) by (unfold sB; rewrite Er, Eq, Et; exact E1).
  assert (EK : sK s i = 1 + gating_d) by (unfold sK; rewrite EB, Hx by trivial; ring).
  assert (EX : forall t, comp (sX s) i t = (1 + gating_d) / (1 + gating_d * exp (- rate * t))).
  { intros t. unfold comp. rewrite nth_sX by (rewrite Hn; trivial). rewrite EB, EK, Er. reflexivity. }
  split; [|split; [|split; [|split]]].
  - rewrite EX, Rmult_0_r, exp_0. field. lra.
  - rewrite EX, E2. field. lra.
  - intros a b Hab. rewrite !EX. unfold Rdiv. apply Rmult_lt_compat_l; [lra|].
    pose proof (exp_pos (- rate * a)). pose proof (exp_pos (- rate * b)).
    assert (exp (- rate * a) < exp (- rate * b)) by (apply exp_increasing; nra).
    apply Rinv_lt_contravar; [apply Rmult_lt_0_compat; nra|]. nra.
  - intros t. rewrite EX. pose proof (exp_pos (- rate * t)). apply Rdiv_lt_0_compat; nra.
  - apply s_shrinks; [rewrite Hn; trivial|]. rewrite Er. exact Hrate.
Qed.

(** ** the cache *)
Definition coherent (n : nat) (c : csys) : Prop :=
  length (g_init (c_sys c)) = n /\ par_ok (g_rate (c_sys c)) n /\ par_ok (g_infl (c_sys c)) n /\
  match c_ks c with None => True | Some ks => s_ks (c_sys c) = Ok ks end.

Lemma par_ok_decouple n p : par_ok p n -> par_ok (decouple n p) n.
Proof. destruct p; cbn; intros H; [apply repeat_length|exact H]. Qed.

Lemma c_get_ks_spec n c : coherent n c ->
  exists ks, s_ks (c_sys c) = Ok ks /\ c_get_ks c = (Csys (c_sys c) (Some ks), Ok ks).
Proof.
  intros (Hn & Hr & Hq & Hk). unfold c_get_ks. destruct c as [s k]; cbn in *.
  destruct k as [ks|]; [now exists ks|].
  rewrite s_ks_ok by (now rewrite Hn). exists (sKs s). split; reflexivity.
Qed.

Lemma c_do_spec n c call : coherent n c ->
  snd (c_do c call) = snd (fresh_do (c_sys c) call) /\
  c_sys (fst (c_do c call)) = fst (fresh_do (c_sys c) call) /\ coherent n (fst (c_do c call)).
Proof.
  intros Hc. pose proof Hc as (Hn & Hr & Hq & Hk). destruct call; cbn.
  - repeat split; trivial.
  - destruct (Nat.eqb (length x) (length (g_init (c_sys c)))) eqn:E; cbn; [|repeat split; trivial].
    apply Nat.eqb_eq in E. repeat split; trivial. cbn. congruence.
  - destruct (Nat.eqb (length y) (length (g_init (c_sys c)))) eqn:E; cbn; [|repeat split; trivial].
    apply Nat.eqb_eq in E. repeat split; trivial. cbn. congruence.
  - unfold coherent; cbn. rewrite !Hn. repeat split; trivial; now apply par_ok_decouple.
  - destruct (c_get_ks_spec n c Hc) as (ks & E1 & E2). rewrite E2. cbn. unfold s_diffeq. rewrite E1.
    repeat split; trivial.
  - destruct (c_get_ks_spec n c Hc) as (ks & E1 & E2). rewrite E2. cbn. unfold s_ana. rewrite E1.
    repeat split; trivial.
Qed.

Lemma cache_never_stale calls s : par_ok (g_rate s) (length (g_init s)) -> par_ok (g_infl s) (length (g_init s)) ->
  c_run (Csys s None) calls = fresh_run s calls.
Proof.
  intros Hr Hq.
  assert (G : forall c n, coherent n c -> c_run c calls = fresh_run (c_sys c) calls).
  { induction calls as [|x xs IH]; intros c n Hc; [reflexivity|]. cbn.
    destruct (c_do_spec n c x Hc) as (H1 & H2 & H3).
    destruct (c_do c x) as [c' r]. destruct (fresh_do (c_sys c) x) as [s' r']. cbn in *. subst.
    f_equal. now apply (IH _ n). }
  apply (G (Csys s None) (length (g_init s))). repeat split; trivial.
Qed.
