(** Proofs about the ball-throwing simulations (C101). *)
From Coq Require Import String.
From Verif Require Import Base BaseLemmas DynModel TrajModel DmpModel CppModel CppTrajModel ThrowModel ThrowSpec.
Open Scope R_scope.

Lemma two (l : list R) : length l = 2%nat -> l = [nth 0 l 0; nth 1 l 0].
Proof. destruct l as [|a [|b [|c l]]]; try discriminate. reflexivity. Qed.
Lemma planar_len h : planar h -> length (h_y h) = 2%nat /\ length (h_yd h) = 2%nat /\ length (h_ydd h) = 2%nat.
Proof. now destruct h as [[y yd] ydd]. Qed.
Lemma lands_unique fl dt p v q q' : lands fl dt p v q -> lands fl dt p v q' -> q = q'.
Proof.
  intros (A1 & A2 & A3) (B1 & B2 & B3). destruct (Nat.lt_trichotomy q q') as [L|[L|L]]; [|exact L|].
  - specialize (B2 q ltac:(lia)). lra.
  - specialize (A2 q' ltac:(lia)). lra.
Qed.
Lemma above_lands fl dt p v j q : above fl dt p v j -> (q <= j)%nat -> ~ lands fl dt p v q.
Proof. intros A L (B1 & _ & B3). specialize (A q ltac:(lia)). lra. Qed.
Lemma above_or_lands fl dt p v j : above fl dt p v j \/ exists q, (q <= j)%nat /\ lands fl dt p v q.
Proof.
  induction j as [|j [IH|(q & L & IH)]].
  - left. intros q Hq. lia.
  - destruct (Rlt_dec (nth 1 (flight dt p v (S j)) 0) fl) as [Hl|Hl].
    + right. exists (S j). split; [lia|]. split; [lia|]. split; [|exact Hl]. replace (S j - 1)%nat with j by lia. exact IH.
    + left. intros q Hq. destruct (Nat.eq_dec q (S j)) as [->|]; [lra|]. apply IH. lia.
  - right. exists q. split; [lia|exact IH].
Qed.
Lemma ball_unique fl dt r H k b b' : ball_at fl dt r H k b -> ball_at fl dt r H k b' -> b = b'.
Proof.
  intros (A1 & A2 & A3) (B1 & B2 & B3). destruct (Nat.le_gt_cases k r) as [L|L]; [rewrite A1, B1 by trivial; reflexivity|].
  destruct (above_or_lands fl dt (h_y (H r)) (h_yd (H r)) (k - r)) as [Ab|(q & Lq & La)].
  - rewrite (A2 (k - r)%nat), (B2 (k - r)%nat) by (trivial; lia). reflexivity.
  - rewrite (A3 (k - r)%nat q), (B3 (k - r)%nat q) by (trivial; lia). reflexivity.
Qed.

Section Throw.
Variables (fl dt : R) (r : nat) (H : nat -> hand).
Hypothesis Hdt : 0 < dt.
Hypothesis Hr : released dt r.
Let p := h_y (H r).
Let v := h_yd (H r).
Notation fly := (flight dt p v).
Notation ok := (ball_at fl dt r H).
Lemma ok_hand k : (k < r)%nat -> ok k (h_y (H k)).
Proof. intros L. split; [trivial|]. split; intros; lia. Qed.
Lemma flight_0 : length p = 2%nat -> fly 0 = p.
Proof. intros L. unfold flight. rewrite (two p L) at 3. f_equal; [|f_equal]; cbn [nth INR]; field. Qed.
Lemma ok_release : length p = 2%nat -> ok r p.
Proof.
  intros L. split; [reflexivity|]. split; intros j.
  - intros E _. assert (j = 0)%nat as -> by lia. symmetry. now apply flight_0.
  - intros q E Lq (B & _). lia.
Qed.
Lemma ok_air j : (1 <= j)%nat -> above fl dt p v j -> ok (r + j) (fly j).
Proof.
  intros Hj A. split; [lia|]. split.
  - intros j' E _. replace j' with j by lia. reflexivity.
  - intros j' q E Lq La. exfalso. apply (above_lands fl dt p v j q); trivial. lia.
Qed.
Lemma ok_floor j q : (q <= j)%nat -> lands fl dt p v q -> ok (r + j) [nth 0 (fly q) 0; fl].
Proof.
  intros Lq La. pose proof La as (L1 & _). split; [lia|]. split.
  - intros j' E A. exfalso. apply (above_lands fl dt p v j' q); trivial. lia.
  - intros j' q' E Lq' La'. now rewrite (lands_unique _ _ _ _ _ _ La La').
Qed.
(** velocity after j steps of falling *)
Definition falling (j : nat) : list R := [nth 0 v 0; nth 1 v 0 - INR j * dt * 9.81].
Lemma falling_0 : length v = 2%nat -> falling 0 = v.
Proof. intros L. unfold falling. rewrite (two v L) at 3. apply f_equal2; [reflexivity|]. apply f_equal2; [|reflexivity]. cbn [INR]. lra. Qed.
Lemma fall_velocity j : vplus (falling j) (vtimes dt [0; -9.81]) = falling (S j).
Proof. unfold falling, vplus, vtimes. cbn [map map2]. rewrite S_INR. apply f_equal2; [lra|]. apply f_equal2; [|reflexivity]. lra. Qed.
Lemma fall_position j : vplus (fly j) (vtimes dt (falling (S j))) = fly (S j).
Proof. unfold flight, falling, vplus, vtimes. cbn [map map2]. rewrite !S_INR. f_equal; [|f_equal]; field. Qed.

(** *** Python *)
(** n rows have been written *)
Definition py_inv (n : nat) (s : psim) : Prop :=
  (1 <= n)%nat /\ length (s_ydds s) = n /\ length (s_ball s) = n /\
  (forall k, (k < n)%nat -> ok k (nth k (s_ball s) [])) /\
  (forall k, (k < n)%nat -> k <> r -> nth k (s_ydds s) [] = h_ydd (H k)) /\
  match s_mode s with
  | InHand => (n <= r)%nat
  | InAir => exists j, n = (r + 1 + j)%nat /\ s_view s = r /\ s_yd s = falling j /\ last (s_ball s) [] = fly j /\ above fl dt p v j /\
             nth r (s_ydds s) [] = match j with 0%nat => h_ydd (H r) | _ => [0; -9.81] end
  | OnFloor => exists j q, n = (r + 1 + j)%nat /\ (q <= j)%nat /\ lands fl dt p v q /\ last (s_ball s) [] = [nth 0 (fly q) 0; fl] /\
             nth r (s_ydds s) [] = [0; -9.81]
  end.
Lemma nth_snoc {A} (l : list A) x k d : nth k (l ++ [x]) d = if Nat.eqb k (length l) then x else nth k l d.
Proof.
  destruct (Nat.eqb_spec k (length l)) as [->|N]; [rewrite app_nth2, Nat.sub_diag; [reflexivity|lia]|].
  destruct (Nat.lt_ge_cases k (length l)); [now rewrite app_nth1|]. rewrite !nth_overflow; trivial; rewrite ?app_length; cbn; lia.
Qed.
Lemma replace_len {A} i (x : A) l : length (replace_at i x l) = length l.
Proof. revert i. induction l as [|a l IH]; intros [|i]; cbn; auto. Qed.
Lemma nth_replace {A} i (x : A) l k d : nth k (replace_at i x l) d = if Nat.eqb k i then (if Nat.ltb i (length l) then x else d) else nth k l d.
Proof.
  revert i k. induction l as [|a l IH]; intros [|i] [|k]; cbn; trivial.
  - destruct (Nat.eqb k i); reflexivity.
  - rewrite IH. reflexivity.
Qed.
Lemma fall_ok e (a : list R) : length a = 2%nat -> fall e a = Ok [0; -9.81].
Proof. intros L. rewrite (two a L). reflexivity. Qed.
Lemma py_throw_inv n s : py_inv n s -> planar (H n) -> planar (H r) -> exists s', py_throw fl dt (INR n * dt) s (H n) = Ok s' /\ py_inv (S n) s'.
Proof.
  intros (Hn & Ly & Lb & Hb & Ha & M) P Pr. destruct Hr as (R1 & R2 & R3). unfold py_throw. destruct (H n) as [[y yd] ydd] eqn:En. destruct P as (P1 & P2 & P3).
  assert (Y : h_y (H n) = y) by now rewrite En. assert (Yd : h_yd (H n) = yd) by now rewrite En. assert (Ydd : h_ydd (H n) = ydd) by now rewrite En.
  assert (LP : length p = 2%nat) by apply (planar_len _ Pr). assert (LV : length v = 2%nat) by apply (planar_len _ Pr). assert (LA : length (h_ydd (H r)) = 2%nat) by apply (planar_len _ Pr).
  destruct (s_mode s) eqn:Em.
  - eexists. split; [reflexivity|]. assert (B : forall k, (k < S n)%nat -> ok k (nth k (s_ball s ++ [y]) [])).
    { intros k Hk. rewrite nth_snoc, Lb. destruct (Nat.eqb_spec k n) as [->|]; [|apply Hb; lia]. destruct (Nat.eq_dec n r) as [E|]; [|rewrite <- Y; apply ok_hand; lia].
      rewrite <- Y, E. apply ok_release. exact LP. }
    split; [lia|]. cbn [s_ydds s_ball s_mode s_view s_yd]. rewrite !app_length, Ly, Lb. split; [cbn; lia|]. split; [cbn; lia|]. split; [exact B|].
    split. { intros k Hk Nk. rewrite nth_snoc, Ly. destruct (Nat.eqb_spec k n) as [->|]; [congruence|apply Ha; lia]. }
    destruct (Rlt_dec 0.6 (INR n * dt)) as [T|T].
    + assert (n = r) as Enr by (destruct (Nat.eq_dec n r); [trivial|]; specialize (R3 n ltac:(lia)); lra). exists 0%nat. split; [lia|]. split; [exact Enr|].
      split; [rewrite (falling_0 LV); unfold v; now rewrite <- Enr|]. split; [rewrite last_last, (flight_0 LP); unfold p; now rewrite <- Enr|].
      split; [intros q Hq; lia|]. rewrite nth_snoc, Ly, Enr, Nat.eqb_refl. now rewrite <- Enr.
    + assert (n <> r) by (intros ->; lra). lia.
  - destruct M as (j & E & Ev & Eyd & El & Ab & Er). assert (Nv : nth r (s_ydds s ++ [ydd]) [] = nth r (s_ydds s) []) by (rewrite nth_snoc, Ly; destruct (Nat.eqb_spec r n); [lia|reflexivity]).
    rewrite Ev, Nv. rewrite fall_ok by (rewrite Er; destruct j; trivial). cbn [bind]. rewrite Eyd, El, fall_velocity, fall_position.
    set (ydds := replace_at r [0; -9.81] (s_ydds s ++ [ydd])).
    assert (Lyd : length ydds = S n) by (unfold ydds; rewrite replace_len, app_length, Ly; cbn; lia).
    assert (A : forall k, (k < S n)%nat -> k <> r -> nth k ydds [] = h_ydd (H k)).
    { intros k Hk Nk. unfold ydds. rewrite nth_replace. destruct (Nat.eqb_spec k r); [contradiction|]. rewrite nth_snoc, Ly. destruct (Nat.eqb_spec k n) as [->|]; [congruence|apply Ha; lia]. }
    assert (Ar : nth r ydds [] = [0; -9.81]).
    { unfold ydds. rewrite nth_replace, Nat.eqb_refl, app_length, Ly. destruct (Nat.ltb_spec r (n + length [ydd])); [reflexivity|cbn in *; lia]. }
    destruct (Rlt_dec (nth 1 (fly (S j)) 0) fl) as [L|L]; eexists; (split; [reflexivity|]); (split; [lia|]); cbn [s_ydds s_ball s_mode s_view s_yd]; rewrite app_length, Lb; (split; [exact Lyd|]); (split; [cbn; lia|]).
    + assert (La : lands fl dt p v (S j)) by (split; [lia|]; split; [replace (S j - 1)%nat with j by lia; exact Ab|exact L]). change (replace_at 1 fl (fly (S j))) with [nth 0 (fly (S j)) 0; fl].
      split. { intros k Hk. rewrite nth_snoc, Lb. destruct (Nat.eqb_spec k n) as [->|]; [|apply Hb; lia]. replace n with (r + S j)%nat by lia. now apply ok_floor. }
      split; [exact A|]. exists (S j), (S j). split; [lia|]. split; [lia|]. split; [exact La|]. split; [now rewrite last_last|exact Ar].
    + assert (Ab' : above fl dt p v (S j)) by (intros q Hq; destruct (Nat.eq_dec q (S j)) as [->|]; [lra|apply Ab; lia]).
      split. { intros k Hk. rewrite nth_snoc, Lb. destruct (Nat.eqb_spec k n) as [->|]; [|apply Hb; lia]. replace n with (r + S j)%nat by lia. apply ok_air; [lia|exact Ab']. }
      split; [exact A|]. exists (S j). split; [lia|]. split; [reflexivity|]. split; [reflexivity|]. split; [now rewrite last_last|]. split; [exact Ab'|exact Ar].
  - destruct M as (j & q & E & Lq & La & El & Er). eexists. split; [reflexivity|]. split; [lia|]. cbn [s_ydds s_ball s_mode s_view s_yd]. rewrite !app_length, Ly, Lb. split; [cbn; lia|]. split; [cbn; lia|].
    split. { intros k Hk. rewrite nth_snoc, Lb. destruct (Nat.eqb_spec k n) as [->|]; [|apply Hb; lia]. rewrite El. replace n with (r + S j)%nat by lia. apply ok_floor; [lia|exact La]. }
    split. { intros k Hk Nk. rewrite nth_snoc, Ly. destruct (Nat.eqb_spec k n) as [->|]; [congruence|apply Ha; lia]. }
    exists (S j), q. split; [lia|]. split; [lia|]. split; [exact La|]. split; [now rewrite last_last|]. rewrite nth_snoc, Ly. destruct (Nat.eqb_spec r n); [lia|exact Er].
Qed.
Lemma py_first_inv : planar (H 0) -> py_inv 1 (py_first (H 0)).
Proof.
  intros P. destruct Hr as (R1 & _). unfold py_first. destruct (H 0) as [[y yd] ydd] eqn:E0. split; [lia|]. cbn [s_ydds s_ball s_mode length]. split; [reflexivity|]. split; [reflexivity|].
  assert (Y : h_y (H 0) = y) by now rewrite E0. split. { intros k Hk. assert (k = 0)%nat as -> by lia. cbn [nth]. rewrite <- Y. apply ok_hand. lia. }
  split; [|exact R1]. intros k Hk _. assert (k = 0)%nat as -> by lia. cbn [nth]. now rewrite E0.
Qed.
End Throw.
