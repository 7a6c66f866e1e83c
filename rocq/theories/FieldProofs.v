(** Proofs about rollouts in a force field. *)
From Verif Require Import Base BaseLemmas DynModel DmpModel DmpProofs17 FieldModel FieldSpec.
Open Scope R_scope.

Lemma ok_inj (A : Type) (a b : A) : Ok a = Ok b -> a = b.
Proof. congruence. Qed.
Lemma field_ok s mt t f : 0 < mt -> field s mt t = Ok f -> f = pull s mt t.
Proof.
  intros Hm. unfold field, pull. destruct (Rlt_dec (0.05 * mt) 0) as [?|_]; [lra|]. cbv zeta. rewrite sqrt_sqrt by lra.
  destruct (Req_EM_T (0.05 * mt) 0) as [?|_]; [lra|]. intros E. apply ok_inj in E. subst f. apply f_equal, f_equal.
  replace (-0.5) with (-(1/2)) by lra. replace 0.05 with (1/20) by lra. replace 0.1 with (1/10) by lra. field. lra.
Qed.
Lemma field_total s mt t : 0 < mt -> exists f, field s mt t = Ok f.
Proof.
  intros Hm. unfold field. destruct (Rlt_dec (0.05 * mt) 0) as [?|_]; [lra|]. cbv zeta. rewrite sqrt_sqrt by lra.
  destruct (Req_EM_T (0.05 * mt) 0) as [?|_]; [lra|]. eauto.
Qed.
Lemma control_driven dim dt s mt t y yd d r r0 : 0 < mt -> control dim dt s mt t y yd d = Ok r -> u_y r0 = y -> u_yd r0 = yd ->
  driven dim dt s mt r0 r /\ u_t r = t /\ u_des r = d.
Proof.
  intros Hm E <- <-. unfold control in E. destruct (negative _); [discriminate|]. destruct (field s mt t) as [f|] eqn:Ef; [|discriminate].
  cbn [bind] in E. injection E as <-. apply field_ok in Ef; trivial. split; [|now split]. unfold driven.
  cbn [u_field u_t u_y u_yd u_ydd u_des]. rewrite !map_length, !seq_length. do 4 (split; [trivial|]). intros i Hi.
  unfold acc, vel, pos, acc_des, gain, pos_des, vel_des. cbn [u_y u_yd u_ydd u_des]. rewrite !nth_map_seq by lia. unfold accelerate.
  split; [ring|]. split; reflexivity.
Qed.

Section Sim.
Variable S : Type.
Variable dim : nat.
Variable start : res (S * wish).
Variable step : R -> S -> res (S * wish).
Notation wish_at := (wish_at S start step).
Variables dt s mt : R.
Hypothesis Hm : 0 < mt.

Lemma loop_inv : forall ts b st w0 y yd rows r0, wish_at dt b = Ok (st, w0) -> u_y r0 = y -> u_yd r0 = yd ->
  field_loop S dim step dt s mt st y yd ts = Ok rows -> length rows = length ts /\
  forall k, (k < length ts)%nat -> u_t (row_at rows k) = nth k ts 0 /\
    (exists st', wish_at dt (Datatypes.S (b + k)) = Ok (st', u_des (row_at rows k))) /\
    driven dim dt s mt (row_at (r0 :: rows) k) (row_at rows k).
Proof.
  induction ts as [|t ts IH]; intros b st w0 y yd rows r0 Hw Hy Hyd E; cbn [field_loop] in E.
  { injection E as <-. split; [reflexivity|]. cbn. intros. lia. }
  destruct (step dt st) as [[st' d]|] eqn:Es; [|discriminate]. cbn [bind fst snd] in E.
  destruct (control dim dt s mt t y yd d) as [r|] eqn:Ec; [|discriminate]. cbn [bind] in E.
  destruct (field_loop _ _ _ _ _ _ _ _ _ _) as [rs|] eqn:El; [|discriminate]. cbn [bind] in E. injection E as <-.
  destruct (control_driven _ _ _ _ _ _ _ _ _ r0 Hm Ec Hy Hyd) as (D & Et & Ed).
  assert (Hw' : wish_at dt (Datatypes.S b) = Ok (st', d)) by (cbn; rewrite Hw; cbn [bind fst]; exact Es).
  destruct (IH _ _ _ _ _ _ r Hw' eq_refl eq_refl El) as (L & H). split; [cbn; now rewrite L|].
  intros [|k] Hk; unfold row_at in *; cbn [nth].
  - split; [exact Et|]. split; [|exact D]. exists st'. rewrite Nat.add_0_r, Ed. exact Hw'.
  - destruct (H k) as (A & B & C); [cbn in Hk; lia|]. split; [exact A|]. split; [|exact C]. now replace (b + Datatypes.S k)%nat with (Datatypes.S b + k)%nat by lia.
Qed.
Lemma loop_total : forall ts b st w0 y yd, wish_at dt b = Ok (st, w0) ->
  (forall k, (k < length ts)%nat -> exists st' d, wish_at dt (Datatypes.S (b + k)) = Ok (st', d) /\ Forall (fun g => 0 <= g) (q_gain d)) ->
  exists rows, field_loop S dim step dt s mt st y yd ts = Ok rows.
Proof.
  induction ts as [|t ts IH]; intros b st w0 y yd Hw H; cbn [field_loop]; [eauto|].
  destruct (H 0%nat) as (st' & d & E & Hg); [cbn; lia|]. rewrite Nat.add_0_r in E. pose proof E as E'. cbn in E. rewrite Hw in E. cbn [bind fst] in E.
  rewrite E. cbn [bind fst snd]. unfold control.
  replace (negative (q_gain d)) with false.
  2:{ symmetry. unfold negative. apply Bool.not_true_is_false. intros X. apply existsb_exists in X. destruct X as (g & Hin & Hb). rewrite Forall_forall in Hg.
      specialize (Hg g Hin). destruct (Rlt_dec g 0); [lra|discriminate]. }
  destruct (field_total s mt t Hm) as [f Ef]. rewrite Ef. cbn [bind].
  match goal with |- context [field_loop _ _ _ _ _ _ _ ?u ?v ts] => destruct (IH (Datatypes.S b) st' d u v E') as [rs Er] end.
  { intros k Hk. destruct (H (Datatypes.S k)) as (st2 & d2 & E2); [cbn; lia|]. exists st2, d2. now replace (Datatypes.S b + k)%nat with (b + Datatypes.S k)%nat by lia. }
  rewrite Er. cbn [bind]. eauto.
Qed.
End Sim.

Lemma linspace_two T n ts : linspace0 T n = Ok ts -> (2 <= n)%Z ->
  length ts = Z.to_nat n /\ ts <> [] /\ (forall k, (k < length ts)%nat -> nth k ts 0 = T * INR k / (IZR n - 1)) /\ nth_res ts 1 = Ok (T / (IZR n - 1)).
Proof.
  intros E Hn. unfold linspace0 in E. destruct (Z.ltb_spec n 0); [lia|].
  destruct (Z.to_nat n) as [|[|k]] eqn:Ek; [lia|lia|]. apply ok_inj in E. subst ts. rewrite map_length, seq_length. split; [reflexivity|]. split; [discriminate|].
  split; [intros j Hj; now rewrite nth_map_seq by lia|]. cbn. f_equal. unfold Rdiv. ring.
Qed.
Lemma linspace_short T n ts : linspace0 T n = Ok ts -> (n < 2)%Z -> nth_res ts 1 = Err IndexError.
Proof.
  intros E Hn. unfold linspace0 in E. destruct (Z.ltb_spec n 0); [discriminate|]. assert (n = 0 \/ n = 1)%Z as [-> | ->] by lia; cbn in E; injection E as <-; reflexivity.
Qed.
Section Rollout.
Variable S : Type.
Variable dim : nat.
Variable start : res (S * wish).
Variable step : R -> S -> res (S * wish).
Notation wish_at := (wish_at S start step).
Notation roll := (field_rollout S dim start step).

Lemma roll_inv T n s mt rows : 0 < mt -> roll T n s mt = Ok rows -> let dt := T / (IZR n - 1) in
  (2 <= n)%Z /\ length rows = Z.to_nat n /\
  (forall k, (k < length rows)%nat -> u_t (row_at rows k) = T * INR k / (IZR n - 1) /\ exists st, wish_at dt k = Ok (st, u_des (row_at rows k))) /\
  (let r := row_at rows 0 in u_y r = q_y (u_des r) /\ u_yd r = q_yd (u_des r) /\ u_ydd r = q_ydd (u_des r) /\ u_field r = 0) /\
  forall k, (Datatypes.S k < length rows)%nat -> driven dim dt s mt (row_at rows k) (row_at rows (Datatypes.S k)).
Proof.
  intros Hm E dt. unfold field_rollout in E. destruct (linspace0 T n) as [ts|] eqn:Et; [|discriminate]. cbn [bind] in E.
  destruct (Z.lt_ge_cases n 2) as [Hs|Hn]; [rewrite (linspace_short _ _ _ Et Hs) in E; discriminate|].
  destruct (linspace_two _ _ _ Et Hn) as (L & Hne & Ht & E1). rewrite E1 in E. cbn [bind] in E. fold dt in E.
  destruct start as [[st d]|] eqn:Est; [|discriminate]. cbn [bind fst snd] in E.
  destruct (field_loop _ _ _ _ _ _ _ _ _ _) as [rs|] eqn:El; [|discriminate]. cbn [bind] in E. injection E as <-.
  set (r0 := Frow (hd 0 ts) d (q_y d) (q_yd d) (q_ydd d) 0).
  assert (W0 : FieldSpec.wish_at S start step dt 0 = Ok (st, d)) by (cbn; exact Est).
  destruct (loop_inv S dim start step dt s mt Hm (tl ts) 0 st d _ _ rs r0 W0 eq_refl eq_refl El) as (Lr & H).
  destruct ts as [|t0 ts]; [congruence|]. cbn [tl hd length] in *.
  split; [exact Hn|]. split; [cbn; lia|]. split; [|split; [now repeat split|]].
  - intros [|k] Hk.
    + unfold row_at. cbn [nth r0 u_t u_des]. split; [|exists st; now rewrite Est in W0]. exact (Ht 0%nat ltac:(lia)).
    + cbn in Hk. destruct (H k) as (A & B & _); [lia|]. unfold row_at in *. cbn [nth]. rewrite A. split; [|rewrite Est in B; exact B].
      rewrite <- (Ht (Datatypes.S k)) by lia. reflexivity.
  - intros k Hk. cbn in Hk. destruct (H k) as (_ & _ & D); [lia|]. exact D.
Qed.
Lemma roll_total T n s mt : 0 < mt -> (2 <= n)%Z -> let dt := T / (IZR n - 1) in
  (forall k, (k < Z.to_nat n)%nat -> exists st d, wish_at dt k = Ok (st, d) /\ Forall (fun g => 0 <= g) (q_gain d)) ->
  exists rows, roll T n s mt = Ok rows.
Proof.
  intros Hm Hn dt H. unfold field_rollout.
  assert (exists ts, linspace0 T n = Ok ts) as [ts Et] by (unfold linspace0; destruct (Z.ltb_spec n 0); [lia|eauto]).
  destruct (linspace_two _ _ _ Et Hn) as (L & Hne & Ht & E1). rewrite Et. cbn [bind]. rewrite E1. cbn [bind]. fold dt.
  destruct (H 0%nat) as (st & d & W0 & _); [lia|]. pose proof W0 as W0'. cbn in W0. rewrite W0. cbn [bind fst snd].
  destruct (loop_total S dim start step dt s mt Hm (tl ts) 0 st d (q_y d) (q_yd d) W0') as [rs Er].
  { intros k Hk. apply (H (Datatypes.S k)). destruct ts; cbn in *; lia. }
  rewrite Er. cbn [bind]. eauto.
Qed.
Lemma roll_same_wishes T n s s' mt mt' rows rows' k : 0 < mt -> 0 < mt' -> roll T n s mt = Ok rows -> roll T n s' mt' = Ok rows' ->
  length rows' = length rows /\ ((k < length rows)%nat -> u_des (row_at rows' k) = u_des (row_at rows k) /\ u_t (row_at rows' k) = u_t (row_at rows k)).
Proof.
  intros Hm Hm' E E'. destruct (roll_inv _ _ _ _ _ Hm E) as (_ & L & H & _). destruct (roll_inv _ _ _ _ _ Hm' E') as (_ & L' & H' & _).
  split; [congruence|]. intros Hk. destruct (H k Hk) as (A & st & B). destruct (H' k ltac:(congruence)) as (A' & st' & B'). split; congruence.
Qed.
(** whether a rollout succeeds does not depend on the force *)
Lemma loop_any dt s mt s' mt' : 0 < mt' -> forall ts st y yd y' yd' rows, field_loop S dim step dt s mt st y yd ts = Ok rows ->
  exists rows', field_loop S dim step dt s' mt' st y' yd' ts = Ok rows'.
Proof.
  intros Hm. induction ts as [|t ts IH]; intros st y yd y' yd' rows E; cbn [field_loop] in *; [eauto|].
  destruct (step dt st) as [[st' d]|]; [|discriminate]. cbn [bind fst snd] in *. unfold control in *.
  destruct (negative _); [discriminate|]. destruct (field s mt t); [|discriminate]. cbn [bind] in E.
  destruct (field_total s' mt' t Hm) as [f' Ef]. rewrite Ef. cbn [bind].
  match type of E with context [field_loop _ _ _ _ _ _ _ ?u ?v ts] => destruct (field_loop S dim step dt s mt st' u v ts) as [rs|] eqn:El end; [|discriminate].
  match goal with |- context [field_loop _ _ _ _ _ _ _ ?u ?v ts] => destruct (IH _ _ _ u v _ El) as [rs' El'] end. rewrite El'. cbn [bind]. eauto.
Qed.
Lemma roll_any T n s mt s' mt' rows : 0 < mt' -> roll T n s mt = Ok rows -> exists rows', roll T n s' mt' = Ok rows'.
Proof.
  intros Hm E. unfold field_rollout in *. destruct (linspace0 T n) as [ts|]; [|discriminate]. cbn [bind] in *.
  destruct (nth_res ts 1) as [dt|]; [|discriminate]. cbn [bind] in *. destruct start as [[st d]|]; [|discriminate]. cbn [bind fst snd] in *.
  destruct (field_loop S dim step dt s mt st (q_y d) (q_yd d) (tl ts)) as [rs|] eqn:El; [|discriminate].
  destruct (loop_any _ _ _ s' mt' Hm _ _ _ _ (q_y d) (q_yd d) _ El) as [rs' ->]. cbn [bind]. eauto.
Qed.
(** superposition *)
Lemma superpose T n s1 s2 a mt rows1 rows2 rows : 0 < mt ->
  roll T n s1 mt = Ok rows1 -> roll T n s2 mt = Ok rows2 -> roll T n (a * s1 + (1 - a) * s2) mt = Ok rows ->
  forall k i, (k < length rows)%nat -> (i < dim)%nat ->
    pos (row_at rows k) i = a * pos (row_at rows1 k) i + (1 - a) * pos (row_at rows2 k) i /\
    vel (row_at rows k) i = a * vel (row_at rows1 k) i + (1 - a) * vel (row_at rows2 k) i /\
    acc (row_at rows k) i = a * acc (row_at rows1 k) i + (1 - a) * acc (row_at rows2 k) i.
Proof.
  intros Hm E1 E2 E k i Hk Hi.
  destruct (roll_inv _ _ _ _ _ Hm E1) as (_ & L1 & H1 & (Y1 & V1 & A1 & _) & D1). destruct (roll_inv _ _ _ _ _ Hm E2) as (_ & L2 & H2 & (Y2 & V2 & A2 & _) & D2).
  destruct (roll_inv _ _ _ _ _ Hm E) as (_ & L & H & (Y & V & A & _) & D).
  assert (W1 : forall k, (k < length rows)%nat -> u_des (row_at rows1 k) = u_des (row_at rows k) /\ u_t (row_at rows1 k) = u_t (row_at rows k)).
  { intros j. apply (proj2 (roll_same_wishes _ _ _ _ _ _ _ _ j Hm Hm E E1)). }
  assert (W2 : forall k, (k < length rows)%nat -> u_des (row_at rows2 k) = u_des (row_at rows k) /\ u_t (row_at rows2 k) = u_t (row_at rows k)).
  { intros j. apply (proj2 (roll_same_wishes _ _ _ _ _ _ _ _ j Hm Hm E E2)). }
  induction k as [|k IH].
  - destruct (W1 0%nat Hk) as [W1' _]. destruct (W2 0%nat Hk) as [W2' _]. unfold pos, vel, acc. rewrite Y, V, A, Y1, V1, A1, Y2, V2, A2, W1', W2'. repeat split; ring.
  - destruct (IH ltac:(lia)) as (I1 & I2 & _). destruct (W1 (Datatypes.S k) Hk) as [W1' T1']. destruct (W2 (Datatypes.S k) Hk) as [W2' T2'].
    destruct (D k Hk) as (F & _ & _ & _ & Q). destruct (Q i Hi) as (Qa & Qv & Qp). destruct (D1 k ltac:(lia)) as (F1 & _ & _ & _ & Q1). destruct (Q1 i Hi) as (Qa1 & Qv1 & Qp1).
    destruct (D2 k ltac:(lia)) as (F2 & _ & _ & _ & Q2). destruct (Q2 i Hi) as (Qa2 & Qv2 & Qp2).
    assert (Ea : acc (row_at rows (Datatypes.S k)) i = a * acc (row_at rows1 (Datatypes.S k)) i + (1 - a) * acc (row_at rows2 (Datatypes.S k)) i).
    { rewrite Qa, Qa1, Qa2, F, F1, F2, T1', T2'. unfold acc_des, gain, pos_des, vel_des. rewrite W1', W2', I1, I2. unfold pull. ring. }
    assert (Ev : vel (row_at rows (Datatypes.S k)) i = a * vel (row_at rows1 (Datatypes.S k)) i + (1 - a) * vel (row_at rows2 (Datatypes.S k)) i) by (rewrite Qv, Qv1, Qv2, Ea, I2; ring).
    split; [rewrite Qp, Qp1, Qp2, Ev, I1; ring|]. now split.
Qed.
End Rollout.
