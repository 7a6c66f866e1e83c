(** Predictions of radial basis function networks and of locally weighted regression are Lipschitz. *)
From Coq Require Import String.
From Verif Require Import Base BaseLemmas DynModel DynSpec DynProofs DynProofs2 DynProofs3 DynProofs5 DynProofs6 ParamModel FaModel FaSpec FaProofs FaProofs4 FaProofs7 FaProofs8 TrajModel DmpModel DmpSpec DmpProofs DmpProofs2 DmpProofs3 DmpProofs5 DmpProofs6 DmpProofs9 CppModel CppSpec CppProofs6 CppProofs7 IntSpec IntProofs IntProofs2.
Open Scope string_scope.
Open Scope R_scope.

Lemma lip_exp f : lipschitz f -> lipschitz (fun x => exp (f x)).
Proof.
  intros H B. destruct (lip_pos f H B) as (L & PL & HL). destruct (lip_bound f H B) as (M & PM & HM).
  exists (exp M * L). intros x y Hx Hy.
  assert (Q : forall a b, a <= b -> b <= M -> Rabs (exp a - exp b) <= exp M * (b - a)).
  { intros a b Hab Hb. pose proof (exp_ge_1p (a - b)) as E. assert (Pb : 0 < exp b) by apply exp_pos.
    assert (Ea : exp a = exp b * exp (a - b)) by (rewrite <- exp_plus; f_equal; ring).
    assert (Eb : exp b <= exp M) by (destruct (Rle_lt_or_eq_dec b M Hb) as [H1| ->]; [left; now apply exp_increasing|lra]).
    assert (E2 : exp a <= exp b) by (destruct (Rle_lt_or_eq_dec a b Hab) as [H1| ->]; [left; now apply exp_increasing|lra]).
    rewrite Rabs_left1 by lra. assert (exp b * (1 + (a - b)) <= exp b * exp (a - b)) by (apply Rmult_le_compat_l; lra).
    assert (exp b * (b - a) <= exp M * (b - a)) by (apply Rmult_le_compat_r; lra). lra. }
  specialize (HL x y Hx Hy). pose proof (HM x Hx) as Mx. pose proof (HM y Hy) as My. apply Rabs_between in Mx. apply Rabs_between in My.
  assert (Pe : 0 < exp M) by apply exp_pos. rewrite Rmult_assoc.
  apply Rle_trans with (exp M * Rabs (f x - f y)); [|apply Rmult_le_compat_l; lra].
  destruct (Rle_dec (f x) (f y)) as [Hle|Hgt].
  - rewrite (Rabs_left1 (f x - f y)) by lra. replace (- (f x - f y)) with (f y - f x) by ring. apply Q; lra.
  - rewrite Rabs_minus_sym, (Rabs_right (f x - f y)) by lra. apply Q; lra.
Qed.
(** a Lipschitz function is continuous, and one that is positive has a positive minimum on an interval *)
Lemma lip_cont f : lipschitz f -> forall x, continuity_pt f x.
Proof.
  intros H x eps He. destruct (lip_pos f H (Rabs x + 1)) as (L & PL & HL).
  exists (Rmin 1 (eps / (L + 1))). split; [apply Rmin_pos; [lra|]; apply Rdiv_lt_0_compat; lra|].
  intros y [_ Hy]. unfold dist in *. cbn in *. unfold R_dist in *.
  pose proof (Rmin_l 1 (eps / (L + 1))). pose proof (Rmin_r 1 (eps / (L + 1))).
  assert (By : Rabs y <= Rabs x + 1) by (replace y with (x + (y - x)) by ring; refine (Rle_trans _ _ _ (Rabs_triang _ _) _); lra).
  specialize (HL y x By ltac:(lra)). apply Rle_lt_trans with (1 := HL).
  apply Rle_lt_trans with (L * (eps / (L + 1))); [apply Rmult_le_compat_l; lra|].
  assert (L * (eps / (L + 1)) = eps - eps / (L + 1)) as -> by (field; lra). pose proof (Rdiv_lt_0_compat eps (L + 1) He ltac:(lra)). lra.
Qed.
Lemma lip_inv f : lipschitz f -> (forall x, 0 < f x) -> lipschitz (fun x => / f x).
Proof.
  intros H P B. destruct (Rle_dec 0 B) as [HB|HB].
  2:{ exists 0. intros x y Hx. pose proof (Rabs_pos x). lra. }
  destruct (continuity_ab_min f (- B) B ltac:(lra) ltac:(intros; now apply lip_cont)) as (x0 & M0 & _).
  destruct (lip_pos f H B) as (L & PL & HL). pose proof (P x0) as P0. exists (/ (f x0 * f x0) * L). intros x y Hx Hy.
  pose proof (M0 x ltac:(now apply Rabs_between)) as Mx. pose proof (M0 y ltac:(now apply Rabs_between)) as My.
  pose proof (P x). pose proof (P y). specialize (HL x y Hx Hy).
  replace (/ f x - / f y) with (/ (f x * f y) * (f y - f x)) by (field; lra). rewrite Rabs_mult, Rabs_minus_sym.
  assert (Pq : 0 < f x0 * f x0) by now apply Rmult_lt_0_compat.
  assert (Q : f x0 * f x0 <= f x * f y) by (apply Rmult_le_compat; lra).
  rewrite (Rabs_right (/ (f x * f y))) by (left; apply Rinv_0_lt_compat; lra). rewrite Rmult_assoc.
  apply Rmult_le_compat; [left; apply Rinv_0_lt_compat; lra|apply Rabs_pos|now apply Rinv_le_contravar|exact HL].
Qed.

Lemma lip_gaussian c w : lipschitz (fun ph => gaussian c w [ph]).
Proof.
  unfold gaussian. apply lip_exp. destruct c as [|c0 c]; [cbn; apply lip_const|]. destruct w as [|w0 w]; [cbn; apply lip_const|].
  apply (lip_ext (fun x => (- / 2) * (/ w0 * (x + - c0)) ^ 2)).
  - intros x. cbn. unfold Rdiv. ring.
  - apply lip_mult; [apply lip_const|]. apply (lip_pow (fun x => / w0 * (x + - c0)) 2). apply lip_mult; [apply lip_const|]. apply lip_plus; [apply lip_id|apply lip_const].
Qed.
Lemma lip_rbf C : forall W ws, lipschitz (fun ph => rbf_sum C W ws [ph]).
Proof.
  unfold rbf_sum, gaussians, dot. induction C as [|c C IH]; intros [|w W] [|v ws]; cbn; try apply lip_const.
  apply (lip_plus (fun ph => gaussian c w [ph] * v)); [|apply IH]. apply lip_mult; [apply lip_gaussian|apply lip_const].
Qed.
Lemma lip_total C : forall W, lipschitz (fun ph => rsum (gaussians C W [ph])).
Proof.
  unfold gaussians. induction C as [|c C IH]; intros [|w W]; cbn; try apply lip_const.
  apply (lip_plus (fun ph => gaussian c w [ph])); [apply lip_gaussian|apply IH].
Qed.
Lemma total_pos d C W x : kset d C W -> 0 < rsum (gaussians C W x).
Proof.
  intros K. pose proof (k_nW _ _ _ K) as L. pose proof (k_NE _ _ _ K) as N. clear K. unfold gaussians. destruct C as [|c C]; [contradiction|]. destruct W as [|w W]; [discriminate|].
  cbn [map2 rsum]. assert (P : forall a b, 0 < gaussian a b x) by (intros; apply exp_pos).
  assert (Q : forall C W, 0 <= rsum (map2 (fun a b => gaussian a b x) C W)).
  { clear. intros C. induction C as [|a C IH]; intros [|b W]; cbn; try lra. specialize (IH W). assert (0 < gaussian a b x) by apply exp_pos. lra. }
  specialize (Q C W). specialize (P c w). cbn in *. lra.
Qed.
Lemma lip_lwr C W lines : kset 1 C W -> lipschitz (fun ph => lwr_sum C W lines [ph]).
Proof.
  intros K. pose proof (fun ph => total_pos 1 C W [ph] K) as P. pose proof (lip_inv _ (lip_total C W) P) as Li. clear K.
  set (s := fun ph : R => / rsum (gaussians C W [ph])) in *.
  assert (G : forall C' W' ls, lipschitz (fun ph => rsum (map2 Rmult (line_values ls [ph]) (map (fun g => g / rsum (gaussians C W [ph])) (gaussians C' W' [ph]))))).
  { unfold gaussians at 2, line_values. induction C' as [|c C' IH]; intros [|w W'] [|l ls]; cbn [map map2 rsum fold_right]; try apply lip_const.
    apply (lip_plus (fun ph => affine (fst l) (snd l) [ph] * (gaussian c w [ph] / rsum (gaussians C W [ph])))); [|apply IH].
    apply lip_mult; [|apply lip_mult; [apply lip_gaussian|exact Li]]. unfold affine. apply lip_plus; [|apply lip_const]. unfold dot.
    destruct (fst l) as [|a sl]; cbn; [apply lip_const|]. apply lip_plus; [apply lip_mult; [apply lip_id|apply lip_const]|apply lip_const]. }
  exact (G C W lines).
Qed.

(** *** trained function approximators *)
Lemma rbfn_smooth phs ys k h lam ps : phs <> [] -> length ys = length phs -> (0 < k)%nat ->
  (exists a b, In a phs /\ In b phs /\ a <> b) \/ k = 1%nat -> 0 < h < 1 -> 0 <= lam ->
  rbfn_train exp [k] h lam (In1 ys) (Mat 1 (map (fun v => [v]) phs)) = Ok ps ->
  exists f, lipschitz f /\ forall ph, rbfn_predict exp ps (Mat 1 [[ph]]) = Ok [f ph].
Proof.
  intros NE Ly Hk Sp Hh Hl E. set (xs := map (fun v => [v]) phs).
  assert (S : samples 1 xs) by (split; [unfold xs; destruct phs; [contradiction|discriminate]|unfold xs; apply Forall_map, Forall_forall; reflexivity]).
  assert (P : per_dim 1 [k]) by (split; [reflexivity|repeat constructor; trivial]).
  pose proof (spread_one phs k Sp) as Sp'. fold xs in Sp'. fold xs in E.
  assert (Lx : length ys = length xs) by (unfold xs; now rewrite map_length).
  destruct (rbfn_fit 1 xs [k] h lam ys (In1 ys) S ltac:(lia) P Sp' Hh Hl Lx (or_introl eq_refl) ps E) as (C & W & ws & B & Lw & -> & _).
  exists (fun ph => rbf_sum C W ws [ph]). split; [apply lip_rbf|].
  intros ph. rewrite (rbfn_predict_ok 1 xs [k] h C W) by (trivial; repeat constructor). reflexivity.
Qed.
Lemma lwr_smooth phs ys k h lam ps : phs <> [] -> length ys = length phs -> (0 < k)%nat ->
  (exists a b, In a phs /\ In b phs /\ a <> b) \/ k = 1%nat -> 0 < h < 1 ->
  lwr_train exp [k] h lam (In1 ys) (Mat 1 (map (fun v => [v]) phs)) = Ok ps ->
  exists f, lipschitz f /\ forall ph, lwr_predict exp ps (Mat 1 [[ph]]) = Ok [f ph].
Proof.
  intros NE Ly Hk Sp Hh E. set (xs := map (fun v => [v]) phs).
  assert (S : samples 1 xs) by (split; [unfold xs; destruct phs; [contradiction|discriminate]|unfold xs; apply Forall_map, Forall_forall; reflexivity]).
  assert (P : per_dim 1 [k]) by (split; [reflexivity|repeat constructor; trivial]).
  pose proof (spread_one phs k Sp) as Sp'. fold xs in Sp'. fold xs in E.
  assert (Lx : length ys = length xs) by (unfold xs; now rewrite map_length).
  destruct (basis_exists 1 xs [k] h S ltac:(lia) P Sp' Hh) as (C & W & B).
  destruct (lwr_fit 1 xs [k] h lam ys (In1 ys) S ltac:(lia) P Sp' Lx (or_introl eq_refl) (or_introl eq_refl) C W B ps E) as (lines & Ll & -> & Best).
  assert (FL : Forall (fun l => length (fst l) = 1%nat) lines).
  { apply Forall_forall. intros l Hl. destruct (In_nth _ _ ([], 0) Hl) as (j & Hj & <-). rewrite Ll in Hj. apply (Best j Hj). }
  pose proof (basis_kset _ _ _ _ _ _ B) as K. exists (fun ph => lwr_sum C W lines [ph]). split; [now apply lip_lwr|].
  intros ph. rewrite (lwr_predict_ok 1 C W K) by (trivial; repeat constructor). reflexivity.
Qed.

Section Train.
Variable kinds : nat -> fa_kind.
Variable ns : nat -> nat.
Variables h lam : nat -> R.
Hypothesis Hn : forall i, (0 < ns i)%nat.
Hypothesis Hh : forall i, 0 < h i < 1.
Hypothesis Hlam : forall i, 0 <= lam i.
Notation pf := (py_predict exp kinds).
Notation tf := (trainer kinds ns h lam).
Notation sf := (safe kinds ns h lam).

Lemma safe_smooth i phs ys ps : sf i phs ys = Ok ps -> exists f, lipschitz f /\ forall ph, pf i ps ph = Ok (f ph).
Proof.
  unfold safe. destruct (differ phs) eqn:D; [|discriminate]. destruct (Nat.eqb_spec (length ys) (length phs)) as [L|]; [|discriminate].
  cbn [andb]. apply differ_ok in D. assert (NE : phs <> []) by (destruct D as (a & _ & Ha & _); intros E; rewrite E in Ha; exact Ha).
  unfold trainer, py_predict. destruct (kinds i); [| |discriminate]; intros E.
  - destruct (rbfn_smooth phs ys (ns i) (h i) (lam i) ps NE L (Hn i) (or_introl D) (Hh i) (Hlam i) E) as (f & A & B). exists f. split; [exact A|].
    intros ph. now rewrite (B ph).
  - destruct (lwr_smooth phs ys (ns i) (h i) (lam i) ps NE L (Hn i) (or_introl D) (Hh i) E) as (f & A & B). exists f. split; [exact A|].
    intros ph. now rewrite (B ph).
Qed.

(** the phases of a demonstration differ: time, and exponential decay *)
Definition moving (m : dmp) : Prop :=
  (exists i d, m_phase m = SubT (Tsys (m_tau m) i d)) \/ m_phase m = SubE (Esys (m_tau m) [1] [0] (PScal 4)).
Lemma phases_move m t phs tg : wf pf m -> demo (m_dim m) t -> tj_ts t <> [] -> 0 < m_tau m -> m_tau m = last (tj_ts t) 0 ->
  hd 0 (tj_ts t) < last (tj_ts t) 0 -> moving m -> targets pf m t = Ok (phs, tg) ->
  differ phs = true /\ length phs = length tg.
Proof.
  intros W Dm Hne Ht El Hlt [Hm|Ep] E; [eapply phases_differ; eassumption|]. destruct (wf_parts _ _ W) as (G & Gd & P & Pd & A & Ad & D & Dd & C & Cd & Q).
  rewrite (targets_form pf m G Gd P Pd A Ad D Dd C Cd W Q t Dm Hne) in E.
  destruct (mapM _ _) as [rows|] eqn:Er; [|discriminate]. cbn [bind] in E.
  assert (E1 : phs = map (fun s => nth 0 (P s) 0) (tj_ts t)) by congruence. assert (E2 : tg = rows) by congruence. subst phs tg. clear E.
  split.
  2:{ rewrite map_length. apply mapM_ok_length in Er. rewrite seq_length in Er. now symmetry. }
  assert (EP : forall u, P u = eX (Esys (m_tau m) [1] [0] (PScal 4)) u).
  { intros u. pose proof (pt_EP _ _ _ _ _ _ _ _ _ _ _ Q [u]) as H. rewrite Ep in H.
    destruct (solves_form _ _ _ _ _ (e_solves (Esys (m_tau m) [1] [0] (PScal 4)) ltac:(cbn; lra) eq_refl I)) as (H1 & _).
    cbn [sub_ana] in H. rewrite H1 in H. cbn [map] in H. congruence. }
  apply (differ_intro _ (nth 0 (P (hd 0 (tj_ts t))) 0) (nth 0 (P (last (tj_ts t) 0)) 0)).
  - apply (in_map (fun s => nth 0 (P s) 0)). destruct (tj_ts t); [contradiction|now left].
  - apply (in_map (fun s => nth 0 (P s) 0)). rewrite last_nth. apply nth_In. destruct (tj_ts t); [contradiction|cbn; lia].
  - rewrite !EP. cbn. rewrite <- El in *. set (t0 := hd 0 (tj_ts t)) in *. intros Z.
    assert (Z1 : - (4) * t0 / m_tau m = - (4) * m_tau m / m_tau m).
    { apply exp_inv. lra. }
    assert (Z2 : t0 = m_tau m) by (apply (f_equal (fun v => v * m_tau m / (-4))) in Z1; revert Z1; replace (- (4) * t0 / m_tau m * m_tau m / -4) with t0 by (field; lra); replace (- (4) * m_tau m / m_tau m * m_tau m / -4) with (m_tau m) by (field; lra); trivial).
    lra.
Qed.
Lemma train_moving m t m' : sound pf m -> demo (m_dim m) t -> 0 < last (tj_ts t) 0 -> hd 0 (tj_ts t) < last (tj_ts t) 0 ->
  goal_accepts m (nth 0 (mrows (tj_ys t)) []) -> moving m ->
  m_train pf tf m t = Ok m' -> m_train pf sf m t = Ok m'.
Proof.
  intros S Dm Hl Hlt Hg Hm E.
  assert (Hne : tj_ts t <> []) by (intros Z; rewrite Z in Hl; cbn in Hl; lra).
  assert (Htau : m_tau m <> 0) by (apply (proj2 S (repeat 0 (m_dim m)) (repeat 0 (m_dim m))); apply repeat_length).
  destruct (train_setup pf m t S Dm Hne ltac:(lra) Hg) as (m2 & W2 & On & Ed & Ef & Es & Er & Esc & Ex & KC & Sy & Pl & Et).
  rewrite Et in E |- *. destruct (m_fas m2) as [fs|]; [|exact E].
  destruct (targets pf m2 t) as [[phs tg]|] eqn:ET; [|exact E]. cbn [bind fst snd] in E |- *.
  destruct On as (T2 & _). cbn [upd_ts m_tau] in T2.
  destruct (phases_move m2 t phs tg) as [Df Lp]; trivial.
  { now rewrite Ed. }
  { now rewrite T2. }
  { destruct KC as (K1 & _). destruct Hm as [(i & d & Ep)|Ep]; [left; exists i, d|right]; rewrite K1, Ep; cbn [sub_set_tau sub_tau t_tau t_init t_down e_tau e_init e_attr e_alpha]; do 2 f_equal; field; trivial. }
  rewrite <- E. f_equal. f_equal. apply mapM_ext. intros j Hj. destruct (nth_res fs j) as [f|]; [|reflexivity]. cbn [bind].
  unfold safe. rewrite Df. unfold col. rewrite map_length, Lp, Nat.eqb_refl. reflexivity.
Qed.
End Train.
