(** The rates of the subsystems, one component at a time. *)
From Coq Require Import String.
From Verif Require Import Base BaseLemmas DynModel DynSpec DynProofs DynProofs2 DynProofs3 DynProofs5 DynProofs7 ParamModel DmpModel DmpSpec DmpProofs DmpProofs19 IntSpec IntProofs.
Open Scope R_scope.

(** ** Lipschitz functions *)
Lemma lip_pos f : lipschitz f -> forall B, exists L, 0 <= L /\ forall x y, Rabs x <= B -> Rabs y <= B -> Rabs (f x - f y) <= L * Rabs (x - y).
Proof.
  intros H B. destruct (H B) as [L HL]. exists (Rabs L). split; [apply Rabs_pos|]. intros x y Hx Hy. refine (Rle_trans _ _ _ (HL x y Hx Hy) _).
  apply Rmult_le_compat_r; [apply Rabs_pos|apply Rle_abs].
Qed.
Lemma lip_bound f : lipschitz f -> forall B, exists M, 0 <= M /\ forall x, Rabs x <= B -> Rabs (f x) <= M.
Proof.
  intros H B. destruct (lip_pos f H B) as (L & HL & Hf). exists (Rabs (f 0) + L * Rabs B). split.
  - pose proof (Rabs_pos (f 0)). pose proof (Rmult_le_pos _ _ HL (Rabs_pos B)). lra.
  - intros x Hx. pose proof (Rabs_sub_le (f x) (f 0)). assert (Hb : Rabs 0 <= B) by (rewrite Rabs_R0; pose proof (Rabs_pos x); lra).
    specialize (Hf x 0 Hx Hb). rewrite Rminus_0_r in Hf. assert (L * Rabs x <= L * Rabs B) by (apply Rmult_le_compat_l; [trivial|]; pose proof (Rle_abs B); lra). lra.
Qed.
Lemma lip_const c : lipschitz (fun _ => c).
Proof. intros B. exists 0. intros. replace (c - c) with 0 by ring. rewrite Rabs_R0. lra. Qed.
Lemma lip_id : lipschitz (fun x => x).
Proof. intros B. exists 1. intros. lra. Qed.
Lemma lip_plus f g : lipschitz f -> lipschitz g -> lipschitz (fun x => f x + g x).
Proof.
  intros Hf Hg B. destruct (Hf B) as [L1 H1]. destruct (Hg B) as [L2 H2]. exists (L1 + L2). intros x y Hx Hy.
  replace (f x + g x - (f y + g y)) with ((f x - f y) + (g x - g y)) by ring. refine (Rle_trans _ _ _ (Rabs_triang _ _) _).
  specialize (H1 x y Hx Hy). specialize (H2 x y Hx Hy). lra.
Qed.
Lemma lip_mult f g : lipschitz f -> lipschitz g -> lipschitz (fun x => f x * g x).
Proof.
  intros Hf Hg B. destruct (lip_pos f Hf B) as (L1 & P1 & H1). destruct (lip_pos g Hg B) as (L2 & P2 & H2).
  destruct (lip_bound f Hf B) as (M1 & Q1 & B1). destruct (lip_bound g Hg B) as (M2 & Q2 & B2).
  exists (M1 * L2 + L1 * M2). intros x y Hx Hy.
  replace (f x * g x - f y * g y) with (f x * (g x - g y) + (f x - f y) * g y) by ring. refine (Rle_trans _ _ _ (Rabs_triang _ _) _).
  specialize (H1 x y Hx Hy). specialize (H2 x y Hx Hy).
  pose proof (Rabs_mult_le _ _ _ _ (B1 x Hx) H2) as E1. pose proof (Rabs_mult_le _ _ _ _ H1 (B2 y Hy)) as E2. lra.
Qed.
Lemma lip_pow f k : lipschitz f -> lipschitz (fun x => f x ^ k).
Proof. intros Hf. induction k as [|k IH]; cbn; [apply lip_const|]. now apply (lip_mult f). Qed.
Lemma lip_ext f g : (forall x, f x = g x) -> lipschitz f -> lipschitz g.
Proof. intros E H B. destruct (H B) as [L HL]. exists L. intros. rewrite <- !E. now apply HL. Qed.

(** ** Rates of the subsystems *)
Definition rates (s : sub) (i : nat) (x : R) : R :=
  match s with
  | SubE e => par_val (e_alpha e) i * (nth i (e_attr e) 0 - x) / e_tau e
  | SubS g => par_val (g_rate g) i * x * (1 - x / sK g i)
  | SubR h => let a := val_a h i in let k := par_val (h_right h) i in
              par_val (h_alpha h) i * (1 - ((x - a) / (k - a)) ^ Z.to_nat (Int_part (val_v h i))) * (x - a) / h_tau h
  | SubT t => if t_down t then (if Rlt_dec 0 x then -1 / t_tau t else 0) else (if Rlt_dec x 1 then 1 / t_tau t else 0)
  end.
Lemma Int_part_INR k : Int_part (INR k) = Z.of_nat k.
Proof. rewrite INR_IZR_INZ. unfold Int_part. rewrite <- (up_tech (IZR (Z.of_nat k)) (Z.of_nat k)); [lia|lra|]. rewrite plus_IZR. lra. Qed.
Lemma npow_INR x k : (1 <= k)%nat -> npow x (INR k) = Ok (x ^ k).
Proof.
  intros Hk. assert (P : 0 < INR k) by (apply lt_0_INR; lia). unfold npow. destruct (Rlt_dec 0 x); [now rewrite Rpower_pow|].
  destruct (Req_EM_T x 0) as [->|]; [destruct (Rlt_dec 0 (INR k)); [|contradiction]; rewrite pow_i by lia; reflexivity|].
  rewrite Int_part_INR. destruct (Req_EM_T _ _) as [_|H]; [|exfalso; apply H; apply INR_IZR_INZ]. rewrite <- pow_powerRZ. reflexivity.
Qed.
Lemma whole_v h i k : h_left h = None -> (1 <= k)%nat -> par_val (h_v h) i = INR k -> val_v h i = INR k.
Proof. intros Hl Hk E. unfold val_v. rewrite Hl, E. apply Rmax_right. pose proof (le_INR 1 k Hk). cbn in H. lra. Qed.
Lemma left_differs h i : h_tau h <> 0 -> h_left h = None -> (i < length (h_init h))%nat -> nth i (h_init h) 0 <> par_val (h_right h) i ->
  par_val (h_right h) i - val_a h i <> 0.
Proof.
  intros Ht Hl Hi Hx. assert (Hv : 0 < val_v h i) by (unfold val_v; rewrite Hl; eapply Rlt_le_trans; [|apply Rmax_l]; lra).
  apply (ka_nz _ _ (nth i (h_init h) 0)). unfold val_a. rewrite Hl. now apply left_in.
Qed.
Lemma sub_rates s x : sub_ok s -> integrable s -> length x = sub_dim s ->
  sub_diffeq s x = Ok (map (fun i => rates s i (nth i x 0)) (seq 0 (sub_dim s))).
Proof.
  intros [Ht Hs] Hi Hx. unfold sub_dim in *. destruct s as [e|g|h|t]; cbn [sub_diffeq sub_init sub_tau rates integrable] in *.
  - destruct Hs as [Ha Hp]. now rewrite e_diffeq_ok.
  - destruct Hs as (Hr & Hq & Hn). now rewrite (s_diffeq_ok g).
  - destruct Hs as (Hl & Ho & Hn). unfold r_diffeq. rewrite Hx, Nat.eqb_refl. apply mapM_pure. intros i Hin. apply in_seq in Hin.
    rewrite r_at_ok by (trivial; lia). cbn [bind]. rewrite (nth_res_ok _ _ 0) by lia. cbn [bind].
    destruct (Req_EM_T (par_val (h_right h) i - val_a h i) 0) as [E|_]; [exfalso; revert E; apply left_differs; trivial; try lia; apply Hn; lia|].
    destruct (Hi i ltac:(lia)) as (k & Hk & Ek). rewrite (whole_v h i k) by trivial. rewrite npow_INR by trivial. cbn [bind].
    destruct (Req_EM_T (h_tau h) 0); [contradiction|]. now rewrite Int_part_INR, Nat2Z.id.
  - rewrite Hs in Hx |- *. destruct x as [|v [|]]; try discriminate. cbn [length seq map nth]. unfold t_diffeq.
    destruct (Req_EM_T (t_tau t) 0) as [?|_]; [lra|]. destruct (t_down t); [destruct (Rlt_dec 0 v)|destruct (Rlt_dec v 1)]; reflexivity.
Qed.
Definition timed (s : sub) : bool := match s with SubT _ => true | _ => false end.
Lemma rates_lip s i : timed s = false -> lipschitz (rates s i).
Proof.
  destruct s as [e|g|h|t]; intros H; [| | |discriminate]; cbn [rates]; cbv zeta.
  - apply (lip_ext (fun x => par_val (e_alpha e) i * nth i (e_attr e) 0 / e_tau e + - (par_val (e_alpha e) i / e_tau e) * x)).
    + intros x. cbn [rates]. unfold Rdiv. ring.
    + apply lip_plus; [apply lip_const|]. apply lip_mult; [apply lip_const|apply lip_id].
  - apply (lip_ext (fun x => par_val (g_rate g) i * x * (1 + - / sK g i * x))).
    + intros x. cbn [rates]. unfold Rdiv. ring.
    + apply lip_mult; [apply lip_mult; [apply lip_const|apply lip_id]|]. apply lip_plus; [apply lip_const|]. apply lip_mult; [apply lip_const|apply lip_id].
  - set (a := val_a h i). set (k := par_val (h_right h) i).
    apply (lip_ext (fun x => par_val (h_alpha h) i * / h_tau h * (1 + -1 * (/ (k - a) * (x + - a)) ^ Z.to_nat (Int_part (val_v h i))) * (x + - a))).
    + intros x. cbn [rates]. cbv zeta. fold a k. replace ((x - a) / (k - a)) with (/ (k - a) * (x + - a)) by (unfold Rdiv; ring). unfold Rdiv. ring.
    + assert (Lx : lipschitz (fun x => x + - a)) by (apply lip_plus; [apply lip_id|apply lip_const]).
      apply lip_mult; [|exact Lx]. apply lip_mult; [apply lip_const|]. apply lip_plus; [apply lip_const|]. apply lip_mult; [apply lip_const|].
      apply lip_pow. apply lip_mult; [apply lip_const|exact Lx].
Qed.

(** ** Solutions: bounded, and approximated by one step *)
Lemma bounded_on (u : R -> R) T : (forall t, continuity_pt u t) -> exists B, forall t, 0 <= t <= T -> Rabs (u t) <= B.
Proof.
  intros Hc. destruct (Rle_dec 0 T) as [HT|HT]; [|exists 0; intros; lra].
  destruct (continuity_ab_maj u 0 T HT ltac:(auto)) as (x1 & H1 & _). destruct (continuity_ab_min u 0 T HT ltac:(auto)) as (x2 & H2 & _).
  exists (Rabs (u x1) + Rabs (u x2)). intros t Ht. specialize (H1 t Ht). specialize (H2 t Ht).
  pose proof (Rle_abs (u x1)). pose proof (Rabs_pos (u x1)). pose proof (Rabs_pos (u x2)). pose proof (Rle_abs (- u x2)) as Q. rewrite Rabs_Ropp in Q. apply Rabs_le. lra.
Qed.
Lemma one_step (u f : R -> R) T : (forall t, derivable_pt_lim u t (f (u t))) -> lipschitz f ->
  exists B C, 0 <= B /\ 0 <= C /\ (forall t, 0 <= t <= T -> Rabs (u t) <= B) /\
    forall t d, 0 <= t -> 0 <= d -> t + d <= T -> Rabs (u (t + d) - u t - d * f (u t)) <= C * (d * d).
Proof.
  intros Hd Hf. destruct (bounded_on u T) as [B0 HB0].
  { intros t. apply derivable_continuous_pt. exists (f (u t)). apply Hd. }
  assert (exists B, 0 <= B /\ forall t, 0 <= t <= T -> Rabs (u t) <= B) as (B & PB & HB).
  { exists (Rabs B0). split; [apply Rabs_pos|]. intros t Ht. pose proof (HB0 t Ht). pose proof (Rle_abs B0). lra. }
  destruct (lip_pos f Hf B) as (L & PL & HL). destruct (lip_bound f Hf B) as (M & PM & HM).
  exists B, (L * M). split; [trivial|]. split; [now apply Rmult_le_pos|]. split; [exact HB|]. intros t d Ht Hd0 HT.
  destruct (Req_dec d 0) as [->|Hne]; [rewrite Rplus_0_r; replace (u t - u t - 0 * f (u t)) with 0 by ring; rewrite Rabs_R0; lra|].
  destruct (MVT_cor2 u (fun c => f (u c)) t (t + d) ltac:(lra) ltac:(intros; apply Hd)) as (c & Ec & Hc).
  destruct (MVT_cor2 u (fun c => f (u c)) t c ltac:(lra) ltac:(intros; apply Hd)) as (c' & Ec' & Hc').
  rewrite Ec. replace (f (u c) * (t + d - t) - d * f (u t)) with (d * (f (u c) - f (u t))) by ring.
  replace (L * M * (d * d)) with (d * (L * (M * d))) by ring. apply Rabs_mult_le; [rewrite Rabs_pos_eq; lra|].
  refine (Rle_trans _ _ _ (HL _ _ (HB c ltac:(lra)) (HB t ltac:(lra))) _). apply Rmult_le_compat_l; [trivial|].
  rewrite Ec'. apply Rabs_mult_le; [apply HM, HB; lra|]. rewrite Rabs_pos_eq; lra.
Qed.
Lemma sub_smooth s : sub_ok s -> integrable s -> timed s = false -> exists X Xd,
  (forall ts, sub_ana s ts = Ok (map X ts, map Xd ts)) /\ X 0 = sub_init s /\ (forall t, length (X t) = sub_dim s) /\
  forall i, (i < sub_dim s)%nat -> forall t, derivable_pt_lim (comp X i) t (rates s i (comp X i t)).
Proof.
  intros Ho Hi Hn. pose proof (sub_rates s) as SR. pose proof Ho as [Ht Hs].
  assert (exists X Xd, solves (sub_diffeq s) (sub_ana s) (sub_init s) X Xd) as (X & Xd & A & B & C & D & E & F).
  { destruct s as [e|g|h|h]; [| | |discriminate]; cbn [sub_diffeq sub_ana sub_init sub_tau] in *.
    - destruct Hs as [H1 H2]. exists (eX e), (eXd e). now apply e_solves.
    - destruct Hs as (H1 & H2 & H3). exists (sX g), (sXd g). now apply s_solves.
    - destruct Hs as (H1 & H2 & H3). destruct (richards_exact h Ht H1 H2 H3) as (X & Xd & Hx & _). exists X, Xd. exact Hx. }
  exists X, Xd. split; [exact A|]. split; [exact B|]. split; [exact C|]. intros i Hii t.
  replace (rates s i (comp X i t)) with (comp Xd i t); [now apply E|].
  specialize (F t). rewrite SR in F by (trivial; apply C). injection F as F. unfold comp. rewrite <- F. now rewrite nth_map_seq.
Qed.

(** ** Time systems *)
Section Time.
Variables (tau : R) (down : bool).
Hypothesis Ht : 0 < tau.
Let f := rates (SubT (new_time tau down)) 0.
Let goal := if down then 0 else 1.
(** the distance left, as a fraction *)
Definition left_ (x : R) : R := if down then x else 1 - x.
Let fl (r : R) : R := if Rlt_dec 0 r then / tau else 0.
Lemma f_left x : f x = if down then - fl (left_ x) else fl (left_ x).
Proof.
  unfold f, fl, left_, rates, new_time. cbn. destruct down.
  - destruct (Rlt_dec 0 x); unfold Rdiv; ring.
  - destruct (Rlt_dec x 1), (Rlt_dec 0 (1 - x)); try lra.
Qed.
(** a step reduces the distance by at most d / tau, by exactly d / tau if it stays positive, and by nothing
    if it is not positive *)
Lemma left_step m d x : 0 <= d ->
  0 <= left_ x - left_ (step1 m f d x) <= d / tau /\
  (0 < left_ x - d / tau -> left_ (step1 m f d x) = left_ x - d / tau) /\
  (left_ x <= 0 -> step1 m f d x = x).
Proof.
  intros Hd. pose proof (Rinv_0_lt_compat _ Ht) as Hp. assert (Hf : forall r, 0 <= fl r <= / tau) by (intros r; unfold fl; destruct (Rlt_dec 0 r); lra).
  set (sg := if down then -1 else 1).
  assert (F : forall y, f y = sg * fl (left_ y)) by (intros y; rewrite f_left; unfold sg; destruct down; ring).
  assert (LA : forall y c k, left_ (y + c * (sg * k)) = left_ y - c * k) by (intros y c k; unfold left_, sg; destruct down; ring).
  destruct m; cbn [step1]; unfold rk1; cbv zeta; rewrite !F.
  - rewrite !LA. set (k1 := fl (left_ x)). set (k2 := fl (left_ x - d / 2 * k1)). set (k3 := fl (left_ x - d / 2 * k2)).
    set (k4 := fl (left_ x - d * k3)).
    replace (sg * k1 + 2 * (sg * k2) + 2 * (sg * k3) + sg * k4) with (sg * (k1 + 2 * k2 + 2 * k3 + k4)) by ring. rewrite LA.
    pose proof (Hf (left_ x)) as H1. fold k1 in H1. pose proof (Hf (left_ x - d / 2 * k1)) as H2. fold k2 in H2.
    pose proof (Hf (left_ x - d / 2 * k2)) as H3. fold k3 in H3. pose proof (Hf (left_ x - d * k3)) as H4. fold k4 in H4.
    split; [|split].
    + replace (left_ x - (left_ x - d / 6 * (k1 + 2 * k2 + 2 * k3 + k4))) with (d * ((k1 + 2 * k2 + 2 * k3 + k4) / 6)) by field.
      split; [apply Rmult_le_pos; lra|]. unfold Rdiv at 2. apply Rmult_le_compat_l; lra.
    + intros Hl. assert (Hd2 : forall c k, 0 <= c <= d -> 0 <= k <= / tau -> 0 < left_ x - c * k).
      { intros c k Hc Hk. assert (c * k <= d * / tau) by (apply Rmult_le_compat; lra). unfold Rdiv in Hl. lra. }
      assert (E1 : k1 = / tau) by (unfold k1, fl; destruct (Rlt_dec 0 (left_ x)) as [_|N]; [trivial|]; exfalso; apply N; pose proof (Hd2 0 0 ltac:(lra) ltac:(lra)); lra).
      assert (E2 : k2 = / tau) by (unfold k2, fl; destruct (Rlt_dec 0 _) as [_|N]; [trivial|]; exfalso; apply N; apply Hd2; lra).
      assert (E3 : k3 = / tau) by (unfold k3, fl; destruct (Rlt_dec 0 _) as [_|N]; [trivial|]; exfalso; apply N; apply Hd2; lra).
      assert (E4 : k4 = / tau) by (unfold k4, fl; destruct (Rlt_dec 0 _) as [_|N]; [trivial|]; exfalso; apply N; apply Hd2; lra).
      rewrite E1, E2, E3, E4. field. lra.
    + intros Hl. assert (E1 : k1 = 0) by (unfold k1, fl; destruct (Rlt_dec 0 (left_ x)); lra).
      assert (E2 : k2 = 0) by (unfold k2, fl; rewrite E1; destruct (Rlt_dec 0 _); lra).
      assert (E3 : k3 = 0) by (unfold k3, fl; rewrite E2; destruct (Rlt_dec 0 _); lra).
      assert (E4 : k4 = 0) by (unfold k4, fl; rewrite E3; destruct (Rlt_dec 0 _); lra).
      rewrite E1, E2, E3, E4. ring.
  - rewrite LA. pose proof (Hf (left_ x)) as H1. split; [|split].
    + replace (left_ x - (left_ x - d * fl (left_ x))) with (d * fl (left_ x)) by ring. split; [apply Rmult_le_pos; lra|]. unfold Rdiv. apply Rmult_le_compat_l; lra.
    + intros Hl. assert (0 <= d / tau) by (apply Rmult_le_pos; lra). unfold fl. destruct (Rlt_dec 0 (left_ x)); [|lra]. unfold Rdiv. ring.
    + intros Hl. unfold fl. destruct (Rlt_dec 0 (left_ x)); [lra|]. ring.
Qed.
Lemma time_error m (z : nat -> R) (t : nat -> R) N h : t 0%nat = 0 -> z 0%nat = 1 - goal -> 0 <= h ->
  (forall k, (k < N)%nat -> 0 <= t (S k) - t k <= h) -> (forall k, (k < N)%nat -> z (S k) = step1 m f (t (S k) - t k) (z k)) ->
  forall k, (k <= N)%nat -> Rabs (z k - (if down then Rmax 0 (1 - t k / tau) else Rmin 1 (t k / tau))) <= / tau * h.
Proof.
  intros T0 Z0 Hh0 Hs Hz. pose proof (Rinv_0_lt_compat _ Ht) as Hp.
  assert (Lft : forall k, (k <= N)%nat -> (left_ (z k) = 1 - t k / tau /\ t k / tau < 1) \/ (1 <= t k / tau /\ - (h / tau) <= left_ (z k) <= h / tau)).
  { induction k as [|k IH]; intros Hk.
    - left. rewrite T0, Z0. unfold left_, goal, Rdiv. rewrite Rmult_0_l. destruct down; lra.
    - specialize (IH ltac:(lia)). specialize (Hs k ltac:(lia)). rewrite Hz by lia. set (d := t (S k) - t k) in *.
      destruct (left_step m d (z k) ltac:(lra)) as (S1 & S2 & S3).
      assert (Q : d / tau <= h / tau) by (unfold Rdiv; apply Rmult_le_compat_r; lra).
      assert (Q0 : 0 <= d / tau) by (apply Rmult_le_pos; lra).
      assert (E : t (S k) / tau = t k / tau + d / tau) by (unfold d; field; lra).
      destruct IH as [[I1 I2]|[I1 I2]].
      + destruct (Rlt_dec (t (S k) / tau) 1) as [C|C].
        * left. split; [|trivial]. rewrite S2 by lra. lra.
        * right. lra.
      + right. split; [lra|]. destruct (Rle_dec (left_ (z k)) 0) as [C|C]; [rewrite S3 by trivial; lra|]. lra. }
  intros k Hk. replace (/ tau * h) with (h / tau) by (unfold Rdiv; ring).
  assert (Hh : 0 <= h / tau) by (apply Rmult_le_pos; lra).
  apply Rabs_le. unfold left_ in Lft. destruct (Lft k Hk) as [[L1 L2]|[L1 L2]]; destruct down; unfold Rmax, Rmin;
    match goal with |- context [Rle_dec ?a ?b] => destruct (Rle_dec a b) end; lra.
Qed.
End Time.
