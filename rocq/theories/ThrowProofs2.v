(** Proofs about the ball-throwing simulations: loops and rows (C101). *)
From Coq Require Import String.
From Verif Require Import Base BaseLemmas DynModel TrajModel DmpModel CppModel CppTrajModel ThrowModel ThrowSpec ThrowProofs.
Open Scope R_scope.

Lemma cols_app a b (u v w : list R) : length u = a -> length v = b -> cols a b (u ++ v ++ w) = v.
Proof. intros <- <-. unfold cols. rewrite skipn_app, skipn_all, Nat.sub_diag. cbn [app skipn]. rewrite firstn_app, Nat.sub_diag, firstn_all. cbn [firstn]. now rewrite app_nil_r. Qed.

Lemma row14 t (y yd ydd b v a : list R) f : length y = 2%nat -> length yd = 2%nat -> length ydd = 2%nat -> length b = 2%nat -> length v = 2%nat -> length a = 2%nat ->
  let row := ([t] ++ y ++ yd ++ ydd ++ b ++ v ++ a ++ [f])%list in
  length row = 14%nat /\ cols 0 1 row = [t] /\ cols 1 2 row = y /\ cols 3 2 row = yd /\ cols 5 2 row = ydd /\ cols 7 2 row = b /\ cols 13 1 row = [f].
Proof.
  intros L1 L2 L3 L4 L5 L6. rewrite (two y L1), (two yd L2), (two ydd L3), (two b L4), (two v L5), (two a L6). cbv zeta. repeat split.
Qed.

Section Cpp.
Variables (dt : R) (r : nat) (H : nat -> hand).
Hypothesis Hdt : 0 < dt.
Hypothesis Hr : released dt r.
Hypothesis HP : forall k, planar (H k).
Notation fl := c_floor.
Let p := h_y (H r).
Let v := h_yd (H r).
Notation fly := (flight dt p v).
Notation ok := (ball_at fl dt r H).
Notation falling := (falling dt r H).
(** after n steps *)
Definition c_inv (n : nat) (s : bsim) : Prop :=
  b_time s = INR n * dt /\
  match n with
  | 0%nat => b_hand s = true
  | S k =>
    b_y s = h_y (H k) /\ b_yd s = h_yd (H k) /\ b_ydd s = h_ydd (H k) /\ ok k (b_ball s) /\
    length (b_ball s) = 2%nat /\ length (b_vel s) = 2%nat /\ length (b_acc s) = 2%nat /\ b_hand s = Nat.ltb k r /\
    forall j, k = (r + j)%nat -> (b_vel s = falling j /\ b_ball s = fly j /\ above fl dt p v j) \/
      exists q, (q <= j)%nat /\ lands fl dt p v q /\ b_vel s = [0; 0] /\ b_ball s = [nth 0 (fly q) 0; fl]
  end.
Lemma b_step_inv n s : c_inv n s -> exists s', b_step dt (H n) s = Ok s' /\ c_inv (S n) s'.
Proof.
  intros (T & I). pose proof Hr as (R1 & R2 & R3). pose proof (planar_len _ (HP n)) as (P1 & P2 & P3). pose proof (planar_len _ (HP r)) as (Q1 & Q2 & Q3).
  unfold b_step. destruct (H n) as [[y yd] ydd] eqn:En. change (h_y (y, yd, ydd)) with y in P1. change (h_yd (y, yd, ydd)) with yd in P2. change (h_ydd (y, yd, ydd)) with ydd in P3.
  assert (Y : h_y (H n) = y) by now rewrite En. assert (Yd : h_yd (H n) = yd) by now rewrite En. assert (Ydd : h_ydd (H n) = ydd) by now rewrite En.
  assert (Hh : b_hand s = Nat.leb n r). { destruct n as [|k]; [exact I|]. destruct I as (_ & _ & _ & _ & _ & _ & _ & Hb & _). exact Hb. }
  assert (Tn : b_time s + dt = INR (S n) * dt) by (rewrite T, S_INR; ring). rewrite Hh. destruct (Nat.leb_spec n r) as [L|L].
  - eexists. split; [reflexivity|]. split; [exact Tn|]. cbn [b_y b_yd b_ydd b_ball b_vel b_acc b_hand]. rewrite Y, Yd, Ydd. do 3 (split; [reflexivity|]).
    split. { destruct (Nat.eq_dec n r) as [E|]; [rewrite <- Y, E; now apply ok_release|rewrite <- Y; apply ok_hand; lia]. }
    do 3 (split; [trivial|]). rewrite T. split.
    { destruct (Rlt_dec 0.6 (INR n * dt)) as [X|X], (Nat.ltb_spec n r) as [Z|Z]; trivial; exfalso.
      - destruct n as [|k]; [cbn in X; lra|]. specialize (R3 (S k) ltac:(lia)). lra.
      - assert (n = r) by lia. subst n. lra. }
    intros j E. assert (j = 0%nat) as -> by lia. assert (n = r) as Enr by lia. left. unfold p, v. rewrite (falling_0 dt r H) by trivial. rewrite flight_0 by trivial. rewrite <- Enr.
    split; [congruence|]. split; [congruence|]. intros q Hq. lia.
  - destruct n as [|k]; [lia|]. destruct I as (_ & _ & _ & _ & LB & LV & LA & _ & J). rewrite (fall_ok _ _ LA). cbn [bind]. set (j := (k - r)%nat).
    destruct (J j ltac:(unfold j; lia)) as [(V & B & A)|(q & Lq & La & V & B)]; rewrite V, B.
    + rewrite fall_velocity, (fall_position dt r H). fold p v. destruct (Rlt_dec (nth 1 (fly (S j)) 0) fl) as [X|X]; eexists; (split; [reflexivity|]); (split; [exact Tn|]);
      cbn [b_y b_yd b_ydd b_ball b_vel b_acc b_hand]; rewrite Y, Yd, Ydd; do 3 (split; [reflexivity|]); replace (Nat.ltb (S k) r) with false by (symmetry; apply Nat.ltb_ge; lia).
      * assert (La : lands fl dt p v (S j)) by (split; [lia|]; split; [replace (S j - 1)%nat with j by lia; exact A|exact X]).
        change (replace_at 1 fl (fly (S j))) with [nth 0 (fly (S j)) 0; fl]. split; [replace (S k) with (r + S j)%nat by (unfold j; lia); now apply ok_floor|].
        do 4 (split; [reflexivity|]). intros j' E. right. exists (S j). split; [unfold j in *; lia|]. split; [exact La|]. now split.
      * assert (A' : above fl dt p v (S j)) by (intros q Hq; destruct (Nat.eq_dec q (S j)) as [->|]; [lra|apply A; lia]).
        split; [replace (S k) with (r + S j)%nat by (unfold j; lia); apply ok_air; [lia|exact A']|]. do 4 (split; [reflexivity|]). intros j' E. replace j' with (S j) by (unfold j in *; lia). left. now split.
    + set (b := vplus [nth 0 (fly q) 0; fl] _). assert (Eb : b = [nth 0 (fly q) 0; fl - 9.81 * dt * dt]).
      { unfold b, vplus, vtimes. cbn [map map2]. apply f_equal2; [lra|]. apply f_equal2; [lra|reflexivity]. }
      destruct (Rlt_dec (nth 1 b 0) fl) as [X|X]; [|exfalso; rewrite Eb in X; cbn [nth] in X; apply X; nra].
      rewrite Eb. change (replace_at 1 fl [nth 0 (fly q) 0; fl - 9.81 * dt * dt]) with [nth 0 (fly q) 0; fl].
      eexists. split; [reflexivity|]. split; [exact Tn|]. cbn [b_y b_yd b_ydd b_ball b_vel b_acc b_hand]. rewrite Y, Yd, Ydd. do 3 (split; [reflexivity|]).
      split; [replace (S k) with (r + S j)%nat by (unfold j; lia); apply ok_floor; [unfold j; lia|exact La]|]. do 3 (split; [reflexivity|]). split; [symmetry; apply Nat.ltb_ge; lia|].
      intros j' E. right. exists q. split; [unfold j in *; lia|]. split; [exact La|]. now split.
Qed.
Lemma new_inv : c_inv 0 b_new.
Proof. split; [cbn; ring|reflexivity]. Qed.
Notation c_row := (cpp_row dt r H).
Lemma b_state_ok k s : c_inv (S k) s -> exists row, b_state s = Ok row /\ c_row k row.
Proof.
  intros (T & E1 & E2 & E3 & O & L1 & L2 & L3 & Hh & _). pose proof (planar_len _ (HP k)) as (P1 & P2 & P3).
  unfold b_state. rewrite E1, E2, E3. cbn [forallb]. rewrite P1, P2, P3, L1, L2, L3. cbn [Nat.eqb andb]. eexists. split; [reflexivity|].
  rewrite T, Hh. destruct (row14 (INR (S k) * dt) (h_y (H k)) (h_yd (H k)) (h_ydd (H k)) (b_ball s) (b_vel s) (b_acc s) (if Nat.ltb k r then 1 else 0)) as (W0 & W1 & W2 & W3 & W4 & W5 & W6); trivial.
  split; [exact W0|]. split; [exact W1|]. split; [exact W2|]. split; [exact W3|]. split; [exact W4|]. split; [|exact W6]. rewrite W5. exact O.
Qed.
Lemma follow_ok n : forall k s, c_inv k s -> exists rows, c_follow (map (fun i => (dt, H i)) (seq k n)) s = Ok rows /\ length rows = n /\ forall i, (i < n)%nat -> c_row (k + i) (nth i rows []).
Proof.
  induction n as [|n IH]; intros k s I; [exists []; split; [reflexivity|]; split; [reflexivity|]; intros; lia|]. cbn [seq map c_follow].
  destruct (b_step_inv k s I) as (s' & -> & I'). cbn [bind]. destruct (b_state_ok k s' I') as (row & -> & Rw). cbn [bind].
  destruct (IH (S k) s' I') as (rows & -> & L & HR). cbn [bind]. exists (row :: rows). split; [reflexivity|]. split; [cbn; lia|]. intros [|i] Hi; cbn [nth].
  - now rewrite Nat.add_0_r.
  - replace (k + S i)%nat with (S k + i)%nat by lia. apply HR. lia.
Qed.
Section Dmp.
Variable D : Type.
Variable start : D -> res (D * list R * list R).
Variable step : D -> R -> list R -> res (D * list R * list R).
Variable sample : D -> list R -> list R -> res hand.
Variable d0 : D.
Notation state := (state_at D start step dt d0).
Notation hnd := (hand_at D start step sample dt d0).
Lemma c_loop_ok n : forall k d x xd s, state k = Ok (d, x, xd) -> c_inv k s -> (forall i, (i < k + n)%nat -> hnd i = Ok (H i)) -> (forall i, (i <= k + n)%nat -> exists q, state i = Ok q) ->
  exists rows, c_loop D step sample dt n d x xd s = Ok rows /\ length rows = n /\ forall i, (i < n)%nat -> c_row (k + i) (nth i rows []).
Proof.
  induction n as [|n IH]; intros k d x xd s E I HM HS; [exists []; split; [reflexivity|]; split; [reflexivity|]; intros; lia|]. cbn [c_loop].
  pose proof (HM k ltac:(lia)) as Hk. unfold hand_at in Hk. rewrite E in Hk. cbn [bind fst snd] in Hk. rewrite Hk. cbn [bind].
  destruct (b_step_inv k s I) as (s' & -> & I'). cbn [bind]. destruct (b_state_ok k s' I') as (row & -> & Rw). cbn [bind].
  destruct (HS (S k) ltac:(lia)) as ([[d' x'] xd'] & E'). pose proof E' as E2. cbn [state_at] in E2. rewrite E in E2. cbn [bind fst snd] in E2. rewrite E2. cbn [bind].
  destruct (IH (S k) d' x' xd' s' E' I') as (rows & -> & L & HR). { intros i Hi. apply HM. lia. } { intros i Hi. apply HS. lia. }
  cbn [bind]. exists (row :: rows). split; [reflexivity|]. split; [cbn; lia|]. intros [|i] Hi; cbn [nth].
  - now rewrite Nat.add_0_r.
  - replace (k + S i)%nat with (S k + i)%nat by lia. apply HR. lia.
Qed.
End Dmp.
End Cpp.

Section Py.
Variables (fl dt : R) (r : nat) (H : nat -> hand).
Hypothesis Hr : released dt r.
Hypothesis HP : forall k, planar (H k).
Variable D : Type.
Variable start : D -> res (D * list R * list R).
Variable step : D -> R -> list R -> res (D * list R * list R).
Variable sample : D -> list R -> list R -> res hand.
Variable d0 : D.
Notation state := (state_at D start step dt d0).
Notation hnd := (hand_at D start step sample dt d0).
Lemma py_loop_ok n : forall k d x xd s, state k = Ok (d, x, xd) -> py_inv fl dt r H (S k) s -> (forall i, (i <= k + n)%nat -> hnd i = Ok (H i)) ->
  exists s', py_loop D step sample fl dt (S k) n d x s = Ok (map H (seq (S k) n), s') /\ py_inv fl dt r H (S (k + n)) s'.
Proof.
  induction n as [|n IH]; intros k d x xd s E I HM; [exists s; split; [reflexivity|]; now rewrite Nat.add_0_r|]. cbn [py_loop].
  pose proof (HM (S k) ltac:(lia)) as Hk. unfold hand_at in Hk. destruct (state (S k)) as [[[d' x'] xd']|] eqn:E'; [|discriminate]. cbn [bind fst snd] in Hk.
  pose proof E' as E2. cbn [state_at] in E2. rewrite E in E2. cbn [bind fst snd] in E2. rewrite E2. cbn [bind]. rewrite Hk. cbn [bind].
  destruct (py_throw_inv fl dt r H Hr (S k) s I (HP _) (HP _)) as (s1 & -> & I1). cbn [bind].
  destruct (IH (S k) d' x' xd' s1 E' I1) as (s2 & -> & I2). { intros i Hi. apply HM. lia. }
  cbn [bind fst snd seq map]. exists s2. split; [reflexivity|]. now replace (k + S n)%nat with (S k + n)%nat by lia.
Qed.
Lemma py_rows_ok hs : forall ydds ball k i, length ydds = length hs -> length ball = length hs -> (i < length hs)%nat -> length (py_rows dt k hs ydds ball) = length hs /\
  nth i (py_rows dt k hs ydds ball) [] = ([INR (k + i) * dt] ++ h_y (nth i hs ([], [], [])) ++ h_yd (nth i hs ([], [], [])) ++ nth i ydds [] ++ nth i ball [])%list.
Proof.
  induction hs as [|[[y yd] ydd] hs IH]; intros [|a ydds] [|b ball] k i L1 L2 Hi; try (cbn in *; lia). cbn [py_rows length nth]. destruct i as [|i].
  - rewrite Nat.add_0_r. split; [|reflexivity]. f_equal. destruct hs as [|h hs]; [destruct ydds, ball; cbn in *; try lia; reflexivity|]. apply (IH ydds ball (S k) 0%nat); cbn in *; lia.
  - destruct (IH ydds ball (S k) i) as (A & B); [cbn in *; lia|cbn in *; lia|cbn in *; lia|]. rewrite A, B. split; [reflexivity|]. now replace (k + S i)%nat with (S k + i)%nat by lia.
Qed.
Notation p_row := (py_row fl dt r H).
Lemma ball_len k b : ball_at fl dt r H k b -> length b = 2%nat.
Proof.
  intros (A1 & A2 & A3). destruct (Nat.le_gt_cases k r) as [L|L]; [rewrite A1 by trivial; apply (planar_len _ (HP k))|].
  destruct (above_or_lands fl dt (h_y (H r)) (h_yd (H r)) (k - r)) as [Ab|(q & Lq & La)].
  - now rewrite (A2 (k - r)%nat) by (trivial; lia).
  - now rewrite (A3 (k - r)%nat q) by (trivial; lia).
Qed.
Lemma rows_ok n s : py_inv fl dt r H n s -> length (py_rows dt 0 (map H (seq 0 n)) (s_ydds s) (s_ball s)) = n /\
  forall k, (k < n)%nat -> p_row n k (nth k (py_rows dt 0 (map H (seq 0 n)) (s_ydds s) (s_ball s)) []).
Proof.
  intros (Hn & L1 & L2 & Hb & Ha & M). assert (Lh : length (map H (seq 0 n)) = n) by now rewrite map_length, seq_length. split.
  - rewrite <- Lh at 2. apply (py_rows_ok _ _ _ 0 0); rewrite ?Lh; trivial.
  - intros k Hk. destruct (py_rows_ok (map H (seq 0 n)) (s_ydds s) (s_ball s) 0 k) as (_ & ->); try (rewrite Lh; trivial; fail).
    rewrite (nth_indep (map H (seq 0 n)) ([], [], []) (H 0)) by now rewrite Lh. rewrite map_nth, seq_nth by trivial. cbn [plus].
    pose proof (planar_len _ (HP k)) as (P1 & P2 & P3). pose proof (ball_len k _ (Hb k Hk)) as PB.
    assert (EA : nth k (s_ydds s) [] = (if (Nat.eqb k r && Nat.ltb (S r) n)%bool then [0; -9.81] else h_ydd (H k))).
    { destruct (Nat.eqb_spec k r) as [->|Nk]; [|now apply Ha]. cbn [andb]. destruct (s_mode s); [lia| |].
      - destruct M as (j & E & _ & _ & _ & _ & ->). destruct (Nat.ltb_spec (S r) n), j; trivial; lia.
      - destruct M as (j & q & E & Lq & (La & _) & _ & ->). destruct (Nat.ltb_spec (S r) n); trivial; lia. }
    assert (PA : length (nth k (s_ydds s) []) = 2%nat) by (rewrite EA; destruct (_ && _)%bool; trivial).
    split; [rewrite !app_length, P1, P2, PA, PB; reflexivity|]. split; [reflexivity|]. split; [now apply (cols_app 1 2)|].
    split; [rewrite app_assoc; apply (cols_app 3 2); [rewrite app_length, P1; reflexivity|trivial]|]. rewrite <- EA.
    split.
    + pose proof (cols_app 5 2 ([INR k * dt] ++ h_y (H k) ++ h_yd (H k)) (nth k (s_ydds s) []) (nth k (s_ball s) [])) as X. rewrite <- !app_assoc in X. apply X; [rewrite !app_length, P1, P2; reflexivity|exact PA].
    + pose proof (cols_app 7 2 ([INR k * dt] ++ h_y (H k) ++ h_yd (H k) ++ nth k (s_ydds s) []) (nth k (s_ball s) []) []) as X. rewrite <- !app_assoc, app_nil_r in X.
      rewrite X; [now apply Hb|rewrite !app_length, P1, P2, PA; reflexivity|exact PB].
Qed.
End Py.

(** the whole simulations, with steps of 0.01 s: released at step 61 *)
Lemma release_61 : released 0.01 61.
Proof.
  split; [lia|]. split; [replace (INR 61) with 61 by (rewrite INR_IZR_INZ; reflexivity); lra|]. intros k Hk. assert (INR k <= INR 60) by (apply le_INR; lia).
  assert (E : INR 60 = 60) by (rewrite INR_IZR_INZ; reflexivity). lra.
Qed.
Section Whole.
Variable D : Type.
Variable start : D -> res (D * list R * list R).
Variable step : D -> R -> list R -> res (D * list R * list R).
Variable sample : D -> list R -> list R -> res hand.
Variables (H : nat -> hand) (d0 : D) (tau : R).
Hypothesis HP : forall k, planar (H k).
Lemma py_simulation_ok fl : let n := ceil_nat (1.5 * tau / 0.01) in (1 <= n)%nat -> moves D start step sample 0.01 d0 n H -> exists rows, py_simulation D start step sample tau fl d0 = Ok rows /\ length rows = n /\
  forall k, (k < n)%nat -> py_row fl 0.01 61 H n k (nth k rows []).
Proof.
  intros n Hn HM. unfold py_simulation. cbv zeta. fold n. pose proof (HM 0%nat ltac:(lia)) as H0. unfold hand_at in H0. cbn [state_at] in H0.
  destruct (start d0) as [[[d x] xd]|] eqn:E; [|discriminate]. cbn [bind fst snd] in H0. cbn [bind]. destruct n as [|n']; [lia|]. rewrite H0. cbn [bind].
  destruct (py_loop_ok fl 0.01 61 H release_61 HP D start step sample d0 n' 0 d x xd (py_first (H 0))) as (s & El & I).
  { exact E. } { apply py_first_inv; [apply release_61|apply HP]. } { intros i Hi. apply HM. lia. }
  rewrite El. cbn [bind fst snd]. change (H 0 :: map H (seq 1 n')) with (map H (seq 0 (S n'))). cbn [plus] in I. destruct (rows_ok fl 0.01 61 H HP (S n') s I) as (A & B). eauto.
Qed.
Lemma execute_ok : let n := floor_nat (1.5 * tau / 0.01) in moves D start step sample 0.01 d0 n H -> (forall k, (k <= n)%nat -> exists q, state_at D start step 0.01 d0 k = Ok q) ->
  exists rows, c_execute_dmp D start step sample tau d0 = Ok rows /\ length rows = n /\ forall k, (k < n)%nat -> cpp_row 0.01 61 H k (nth k rows []).
Proof.
  intros n HM HS. unfold c_execute_dmp. cbv zeta. fold n. destruct (HS 0%nat ltac:(lia)) as ([[d x] xd] & E). cbn [state_at] in E. rewrite E. cbn [bind].
  apply (c_loop_ok 0.01 61 H ltac:(lra) release_61 HP D start step sample d0 n 0 d x xd b_new); trivial. apply new_inv.
Qed.
End Whole.
