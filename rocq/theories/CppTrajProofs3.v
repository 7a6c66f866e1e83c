(** Proofs about appending C++ trajectories and C++ trajectories through a via-point (C100). *)
From Coq Require Import String.
From Coquelicot Require Import Coquelicot.
From Verif Require Import Base BaseLemmas FaModel FaProofs2 TrajModel TrajSpec TrajProofs TrajProofs2 TrajProofs3 TrajProofs4 TrajProofs6.
From Verif Require Import CppTrajModel CppTrajSpec CppTrajProofs CppTrajProofs2.
Open Scope R_scope.

(** ** equal rows *)
Lemma sq_nonneg a : 0 <= sq a.
Proof. unfold sq. induction a as [|x a IH]; cbn; [lra|]. nra. Qed.
Lemma sq_minus_self a : sq (map2 Rminus a a) = 0.
Proof. unfold sq. induction a as [|x a IH]; cbn; [reflexivity|]. rewrite IH. ring. Qed.
Lemma eps_pos : 0 < eps.
Proof. unfold eps. apply Rinv_0_lt_compat. lra. Qed.
Lemma same_rows_refl a : same_rows a a = true.
Proof.
  unfold same_rows. destruct (is_zero a) eqn:E; cbn; [reflexivity|]. unfold is_approx. destruct (Rle_dec _ _) as [|H]; [reflexivity|]. exfalso. apply H. rewrite sq_minus_self.
  rewrite Rmin_left by lra. pose proof eps_pos. pose proof (sq_nonneg a). apply Rmult_le_pos; nra.
Qed.
Lemma nth_rows_last (m : mat) : last (mrows m) nil = nth (length (mrows m) - 1) (mrows m) nil.
Proof.
  destruct (mrows m) as [|r rows] using rev_ind; [reflexivity|]. rewrite last_last, app_length. cbn. rewrite app_nth2 by lia.
  replace (length rows + 1 - 1 - length rows)%nat with 0%nat by lia. reflexivity.
Qed.
Lemma row_eq n1 n2 d a b : samples n1 d a -> samples n2 d b -> (1 <= n1)%nat -> (1 <= n2)%nat ->
  (forall i, (i < d)%nat -> at2 a (n1 - 1) i = at2 b 0 i) -> last (mrows a) nil = nth 0 (mrows b) nil.
Proof.
  intros Ha Hb H1 H2 H. rewrite nth_rows_last. pose proof Ha as (_ & La & _). rewrite La. apply (nth_ext _ _ 0 0).
  - rewrite (nth_row n1 d a _ Ha), (nth_row n2 d b _ Hb) by lia. reflexivity.
  - intros i Hi. rewrite (nth_row n1 d a _ Ha) in Hi by lia. now apply H.
Qed.

(** ** append *)
Lemma repeat_samples n : samples n 0 (Mat 0 (repeat nil n)).
Proof. split; [reflexivity|]. split; [apply repeat_length|]. intros r Hr. apply repeat_spec in Hr. now subst. Qed.
Lemma tl_len {A} (l : list A) n : length l = S n -> length (tl l) = n.
Proof. destruct l; cbn; lia. Qed.
Lemma join_samples n m d a b : samples n d a -> samples m d b -> (1 <= m)%nat -> samples (n + m - 1) d (c_join a b).
Proof.
  intros (A1 & A2 & A3) (B1 & B2 & B3) Hm. split; [exact A1|]. cbn [c_join mrows]. split.
  - rewrite app_length, (tl_len _ (m - 1)); lia.
  - intros r Hr. apply in_app_or in Hr. destruct Hr as [Hr|Hr]; [auto|]. apply B3. destruct (mrows b); [contradiction|]. now right.
Qed.
Lemma nth_tl {A} (l : list A) k d : nth k (tl l) d = nth (S k) l d.
Proof. destruct l; [now destruct k|reflexivity]. Qed.
Lemma join_at n m d a b k i : samples n d a -> samples m d b ->
  at2 (c_join a b) k i = if Nat.ltb k n then at2 a k i else at2 b (k - n + 1) i.
Proof.
  intros (_ & A2 & _) _. unfold at2, c_join. cbn [mrows]. destruct (Nat.ltb_spec k n).
  - now rewrite app_nth1 by lia.
  - rewrite app_nth2 by lia. rewrite A2, nth_tl. f_equal. f_equal. lia.
Qed.
Lemma append_gen debug n m d k c u : c_consistent n d k c -> c_consistent m d k u -> (1 <= n)%nat -> (1 <= m)%nat -> (debug = true -> meets n d c u) ->
  exists r, c_append debug c u = Ok r /\ c_consistent (n + m - 1) d k r /\ c_joined n c u r.
Proof.
  intros (C0 & C1 & C2 & C3 & C4) (U0 & U1 & U2 & U3 & U4) Hn Hm H. unfold c_append.
  assert (Dc : c_dim c = d) by apply C1. assert (Du : c_dim u = d) by apply U1. assert (Kc : c_dim_misc c = k) by apply C4. assert (Ku : c_dim_misc u = k) by apply U4.
  rewrite Dc, Du, Kc, Ku, !Nat.eqb_refl. cbn [must bind]. destruct (ct_ts c) as [|a ts] eqn:Ec; [cbn in C0; lia|]. destruct (ct_ts u) as [|u0 us] eqn:Eu; [cbn in U0; lia|].
  assert (G : (negb debug || (if Req_EM_T (last (a :: ts) 0) u0 then true else false) && same_rows (last (mrows (ct_ys c)) nil) (nth 0 (mrows (ct_ys u)) nil) &&
     same_rows (last (mrows (ct_yds c)) nil) (nth 0 (mrows (ct_yds u)) nil) && same_rows (last (mrows (ct_ydds c)) nil) (nth 0 (mrows (ct_ydds u)) nil))%bool = true).
  { destruct debug; [|reflexivity]. destruct (H eq_refl) as (M0 & M1). rewrite Ec, Eu in M0. cbn [nth] in M0. cbn [negb orb]. destruct (Req_EM_T (last (a :: ts) 0) u0); [|contradiction].
    rewrite (row_eq n m d _ _ C1 U1 Hn Hm), (row_eq n m d _ _ C2 U2 Hn Hm), (row_eq n m d _ _ C3 U3 Hn Hm) by (intros i Hi; now destruct (M1 i Hi) as (? & ? & ?)).
    now rewrite !same_rows_refl. }
  rewrite G. cbn [must bind]. eexists. split; [reflexivity|].
  assert (LT : length ((a :: ts) ++ us) = (n + m - 1)%nat) by (rewrite app_length; cbn in *; lia).
  assert (SM : samples (n + m - 1) k (if Nat.eqb k 0 then Mat 0 (repeat nil (length ((a :: ts) ++ us))) else c_join (ct_misc c) (ct_misc u))).
  { destruct (Nat.eqb_spec k 0) as [->|_]; [rewrite LT; apply repeat_samples|now apply join_samples]. }
  split.
  - split; [exact LT|]. cbn [ct_ys ct_yds ct_ydds ct_misc]. split; [now apply join_samples|]. split; [now apply join_samples|]. split; [now apply join_samples|]. exact SM.
  - unfold c_joined. rewrite Ec, Eu. cbn [ct_ts ct_ys ct_yds ct_ydds ct_misc tl]. split; [reflexivity|]. split; [intros; now apply (join_at n m d)|]. split; [intros; now apply (join_at n m d)|].
    split; [intros; now apply (join_at n m d)|]. intros q j Hj. rewrite Kc in Hj. destruct (Nat.eqb_spec k 0); [lia|]. now apply (join_at n m k).
Qed.
Lemma joined_increasing (a b : list R) : increasing a -> increasing b -> a <> nil -> b <> nil -> last a 0 = nth 0 b 0 -> increasing (a ++ tl b).
Proof.
  intros Ha Hb Na Nb H. apply increasing_app. split; [trivial|]. destruct b as [|b0 b]; [contradiction|]. cbn [tl nth] in *. split.
  - intros i j Hij Hj. apply (Hb (S i) (S j)); cbn; lia.
  - intros _ Nb'. rewrite H. destruct b as [|b1 b]; [contradiction|]. apply (Hb 0%nat 1%nat); cbn; lia.
Qed.

(** ** via-points *)
Lemma new_misc ts a b e c : c_new ts a b e no_misc = Ok c -> samples (length ts) 0 (ct_misc c).
Proof.
  unfold c_new. cbn [no_misc mcols Nat.eqb]. do 6 (match goal with |- bind (must ?x) _ = _ -> _ => destruct x; cbn [must bind]; [|discriminate] end).
  intros H. apply ok_inj in H. subst c. apply repeat_samples.
Qed.
Lemma c_polynomial_ok ts y v a y' v' a' : all_len (length y) (v :: a :: y' :: v' :: a' :: nil) -> increasing ts -> (2 <= length ts)%nat ->
  exists c, c_polynomial ts y v a y' v' a' = Ok c /\ c_consistent (length ts) (length y) 0 c /\ ct_ts c = ts /\
  let D := last ts 0 - nth 0 ts 0 in
  forall i, (i < length y)%nat ->
    at2 (ct_ys c) 0 i = nth i y 0 /\ at2 (ct_yds c) 0 i = nth i v 0 / D /\ at2 (ct_ydds c) 0 i = nth i a 0 / D ^ 2 /\
    at2 (ct_ys c) (length ts - 1) i = nth i y' 0 - nth i a 0 / 2 /\ at2 (ct_yds c) (length ts - 1) i = (nth i v' 0 - nth i a 0) / D /\
    at2 (ct_ydds c) (length ts - 1) i = nth i a' 0 / D ^ 2.
Proof.
  intros Hl Hi Hn. pose proof (increasing_ends ts Hi Hn) as HD. assert (Hne : ts <> nil) by (intros ->; cbn in Hn; lia).
  destruct (from_polynomial_ok ts y v a y' v' a' Hl Hne ltac:(lra)) as (t & E & Ct & T & Dm & _ & Mi & P).
  pose proof (polynomial_same ts y v a y' v' a') as S. rewrite E in S. destruct (c_polynomial ts y v a y' v' a') as [c|] eqn:Ec; [|contradiction].
  cbn in S. pose proof S as (S0 & S1 & S2 & S3 & S4 & S5 & _). exists c. split; [reflexivity|]. pose proof Ct as (T1 & T2 & T3 & _). rewrite T, Dm in T1, T2, T3.
  rewrite S1 in T1. rewrite S2 in T2. rewrite S3 in T3.
  assert (M0 : samples (length ts) 0 (ct_misc c)).
  { unfold c_polynomial in Ec. destruct (must _) as [u0|]; [|discriminate]. cbn [bind] in Ec. destruct ts as [|t0 ts']; [contradiction|]. destruct (Req_EM_T _ 0); [discriminate|].
    now apply new_misc in Ec. }
  split; [split; [congruence|]; auto|]. split; [congruence|]. cbv zeta in *. intros i Hi'. destruct (P i Hi') as (Y & Yd & Ydd & Sm & _ & B1 & B2 & B3 & B4 & B5 & B6).
  unfold samples_of in Sm. rewrite T in Sm. destruct (Sm 0%nat ltac:(lia)) as (A1 & A2 & A3). destruct (Sm (length ts - 1)%nat ltac:(lia)) as (A4 & A5 & A6).
  rewrite <- last_nth' in A4, A5, A6. rewrite <- S1, <- S2, <- S3. rewrite A1, A2, A3, A4, A5, A6. auto 10.
Qed.

Lemma nth_skip (l : list R) k q : nth q (skipn k l) 0 = nth (k + q) l 0.
Proof. revert l. induction k as [|k IH]; intros l; [reflexivity|]. destruct l as [|x l]; [now destruct q|]. apply IH. Qed.
Lemma tl_skip (l : list R) k : tl (skipn k l) = skipn (k + 1) l.
Proof. revert l. induction k as [|k IH]; intros l; [now destruct l|]. destruct l as [|x l]; [reflexivity|]. cbn [skipn plus]. apply IH. Qed.
Section Via.
Variables (ts y via : list R) (vt : R) (y' : list R) (k : nat).
Hypothesis Hinc : increasing ts.
Hypothesis Hk1 : (1 <= k)%nat.
Hypothesis Hkn : (k + 2 <= length ts)%nat.
Hypothesis Hv1 : nth (k - 1) ts 0 < vt.
Hypothesis Hv2 : vt <= nth k ts 0.
Hypothesis Lv : length via = (3 * length y)%nat.
Hypothesis Ly' : length y' = length y.
Let n := length ts.
Let d := length y.
Let D1 := nth k ts 0 - nth 0 ts 0.
Let D2 := nth (n - 1) ts 0 - nth k ts 0.
Lemma Dpos : 0 < D1 /\ 0 < D2.
Proof. unfold D1, D2. split; [specialize (Hinc 0%nat k ltac:(lia) ltac:(lia))|specialize (Hinc k (n - 1)%nat ltac:(unfold n; lia) ltac:(unfold n; lia))]; lra. Qed.
(** the two parts *)
Lemma via_parts : exists c1 c2, c_consistent (k + 1) d 0 c1 /\ c_consistent (n - k) d 0 c2 /\ ct_ts c1 = firstn (k + 1) ts /\ ct_ts c2 = skipn k ts /\
  (forall debug, c_viapoint debug ts y via vt y' = c_append debug c1 c2) /\
  (forall i, (i < d)%nat -> at2 (ct_ys c1) 0 i = nth i y 0 /\ at2 (ct_yds c1) 0 i = 0 /\ at2 (ct_ydds c1) 0 i = 0 /\
     at2 (ct_ys c1) k i = nth i via 0 /\ at2 (ct_yds c1) k i = nth (d + i) via 0 / D1 /\ at2 (ct_ydds c1) k i = nth (2 * d + i) via 0 / D1 ^ 2) /\
  (forall i, (i < d)%nat -> at2 (ct_ys c2) 0 i = nth i via 0 /\ at2 (ct_yds c2) 0 i = nth (d + i) via 0 / D2 /\ at2 (ct_ydds c2) 0 i = nth (2 * d + i) via 0 / D2 ^ 2 /\
     at2 (ct_ys c2) (n - k - 1) i = nth i y' 0 - nth (2 * d + i) via 0 / 2 /\ at2 (ct_yds c2) (n - k - 1) i = - nth (2 * d + i) via 0 / D2 /\ at2 (ct_ydds c2) (n - k - 1) i = 0).
Proof.
  set (z := repeat 0 d). set (vy := firstn d via). set (vyd := firstn d (skipn d via)). set (vydd := firstn d (skipn (2 * d) via)).
  assert (Lz : length z = d) by apply repeat_length. assert (L1 : length vy = d) by (unfold vy; rewrite firstn_length; unfold d; lia).
  assert (L2 : length vyd = d) by (unfold vyd; rewrite firstn_length, skipn_length; unfold d; lia).
  assert (L3 : length vydd = d) by (unfold vydd; rewrite firstn_length, skipn_length; unfold d; lia).
  assert (F1 : length (firstn (k + 1) ts) = (k + 1)%nat) by (rewrite firstn_length; lia). assert (F2 : length (skipn k ts) = (n - k)%nat) by apply skipn_length.
  assert (I1 := increasing_firstn (k + 1) ts Hinc). assert (I2 := increasing_skipn k ts Hinc).
  assert (N1 : nth 0 (firstn (k + 1) ts) 0 = nth 0 ts 0) by (change (firstn (k + 1) ts) with (firstn (k + 1) (skipn 0 ts)); rewrite nth_part; [reflexivity|lia]).
  assert (N2 : last (firstn (k + 1) ts) 0 = nth k ts 0)
    by (rewrite last_nth', F1; change (firstn (k + 1) ts) with (firstn (k + 1) (skipn 0 ts)); rewrite nth_part by lia; f_equal; lia).
  assert (SK : forall q, nth q (skipn k ts) 0 = nth (k + q) ts 0).
  { intros q. apply nth_skip. }
  assert (N3 : nth 0 (skipn k ts) 0 = nth k ts 0) by (rewrite SK; f_equal; lia).
  assert (N4 : last (skipn k ts) 0 = nth (n - 1) ts 0) by (rewrite last_nth', F2, SK; f_equal; unfold n; lia).
  destruct (c_polynomial_ok (firstn (k + 1) ts) y z z vy vyd vydd) as (c1 & E1 & C1 & T1 & P1).
  { intros l Hl. cbn in Hl. fold d. destruct Hl as [<-|[<-|[<-|[<-|[<-|[]]]]]]; trivial. } { exact I1. } { lia. }
  destruct (c_polynomial_ok (skipn k ts) vy vyd vydd y' z z) as (c2 & E2 & C2 & T2 & P2).
  { intros l Hl. cbn in Hl. rewrite L1. destruct Hl as [<-|[<-|[<-|[<-|[<-|[]]]]]]; trivial. } { exact I2. } { unfold n in *. lia. }
  exists c1, c2. rewrite F1 in C1. rewrite F2, L1 in C2. split; [exact C1|]. split; [exact C2|]. split; [exact T1|]. split; [exact T2|].
  split. { intros debug. unfold c_viapoint. rewrite (steps_before_spec ts vt k Hinc) by (trivial; lia). fold d. rewrite Ly'. fold d. rewrite Nat.eqb_refl, Lv. fold d. rewrite Nat.eqb_refl.
    destruct (Nat.leb_spec (length ts) k); [lia|]. cbn [must bind]. fold z vy vyd vydd. rewrite E1. cbn [bind]. rewrite E2. reflexivity. }
  cbv zeta in P1, P2. rewrite N1, N2, F1 in P1. rewrite N3, N4, F2, L1 in P2. fold d in P1. fold D1 in P1. fold D2 in P2. replace (k + 1 - 1)%nat with k in P1 by lia.
  destruct Dpos as (HD1 & HD2).
  assert (V1 : forall i, (i < d)%nat -> nth i vy 0 = nth i via 0) by (intros i Hi; unfold vy; change via with (skipn 0 via) at 1; now rewrite nth_part).
  assert (V2 : forall i, (i < d)%nat -> nth i vyd 0 = nth (d + i) via 0) by (intros i Hi; unfold vyd; now rewrite nth_part).
  assert (V3 : forall i, (i < d)%nat -> nth i vydd 0 = nth (2 * d + i) via 0) by (intros i Hi; unfold vydd; now rewrite nth_part).
  split; intros i Hi.
  - destruct (P1 i Hi) as (A1 & A2 & A3 & A4 & A5 & A6). rewrite A1, A2, A3, A4, A5, A6, V1, V2, V3 by trivial. unfold z. rewrite !nth_rep. repeat split; field; lra.
  - destruct (P2 i Hi) as (A1 & A2 & A3 & A4 & A5 & A6). rewrite A1, A2, A3, A4, A5, A6, V1, V2, V3 by trivial. unfold z. rewrite !nth_rep. repeat split; field; lra.
Qed.
Lemma times_join : (firstn (k + 1) ts ++ tl (skipn k ts))%list = ts.
Proof.
  rewrite <- (firstn_skipn (k + 1) ts) at 3. f_equal. apply tl_skip.
Qed.
Lemma c_viapoint_ok debug : (debug = true -> forall i, (i < d)%nat -> nth (d + i) via 0 = 0 /\ nth (2 * d + i) via 0 = 0) -> exists c,
  c_viapoint debug ts y via vt y' = Ok c /\ c_consistent n d 0 c /\ ct_ts c = ts /\
  forall i, (i < d)%nat ->
    at2 (ct_ys c) 0 i = nth i y 0 /\ at2 (ct_yds c) 0 i = 0 /\ at2 (ct_ydds c) 0 i = 0 /\
    at2 (ct_ys c) k i = nth i via 0 /\ at2 (ct_yds c) k i = nth (d + i) via 0 / D1 /\ at2 (ct_ydds c) k i = nth (2 * d + i) via 0 / D1 ^ 2 /\
    at2 (ct_ys c) (n - 1) i = nth i y' 0 - nth (2 * d + i) via 0 / 2 /\ at2 (ct_yds c) (n - 1) i = - nth (2 * d + i) via 0 / D2 /\ at2 (ct_ydds c) (n - 1) i = 0.
Proof.
  intros Hz. destruct via_parts as (c1 & c2 & C1 & C2 & T1 & T2 & E & P1 & P2). destruct Dpos as (HD1 & HD2).
  destruct (append_gen debug (k + 1) (n - k) d 0 c1 c2 C1 C2 ltac:(lia) ltac:(unfold n; lia)) as (c & Ea & Cc & J0 & J1 & J2 & J3 & _).
  { intros Hd. split.
    - rewrite T1, T2. destruct C1 as (LC1 & _). rewrite T1 in LC1. rewrite last_nth', LC1. change (firstn (k + 1) ts) with (firstn (k + 1) (skipn 0 ts)). rewrite nth_part by lia. cbn [plus].
      replace (k + 1 - 1)%nat with k by lia. rewrite nth_skip. f_equal. lia.
    - intros i Hi. replace (k + 1 - 1)%nat with k by lia. destruct (P1 i Hi) as (_ & _ & _ & -> & -> & ->), (P2 i Hi) as (-> & -> & -> & _). destruct (Hz Hd i Hi) as (-> & ->).
      repeat split; field; lra. }
  exists c. split; [rewrite E; exact Ea|]. replace (k + 1 + (n - k) - 1)%nat with n in Cc by (unfold n; lia). split; [exact Cc|]. split; [rewrite J0, T1, T2; apply times_join|].
  intros i Hi. destruct (P1 i Hi) as (A1 & A2 & A3 & A4 & A5 & A6), (P2 i Hi) as (_ & _ & _ & B4 & B5 & B6). rewrite !J1, !J2, !J3.
  destruct (Nat.ltb_spec 0 (k + 1)); [|lia]. destruct (Nat.ltb_spec k (k + 1)); [|lia]. destruct (Nat.ltb_spec (n - 1) (k + 1)); [unfold n in *; lia|].
  replace (n - 1 - (k + 1) + 1)%nat with (n - k - 1)%nat by (unfold n in *; lia). auto 12.
Qed.

(** a moving via-point fails an assertion, unless the two parts take about the same time *)
Lemma is_zero_false (r : list R) i : (i < length r)%nat -> eps < Rabs (nth i r 0) -> is_zero r = false.
Proof.
  intros Hi H. destruct (is_zero r) eqn:E; [|reflexivity]. unfold is_zero in E. rewrite forallb_forall in E. specialize (E (nth i r 0) (nth_In _ _ Hi)).
  destruct (Rle_dec (Rabs (nth i r 0)) eps); [lra|discriminate].
Qed.
Lemma sq_scale c (l r : list R) : length r = length l -> (forall i, (i < length l)%nat -> nth i r 0 = c * nth i l 0) -> sq r = c * c * sq l.
Proof.
  unfold sq. revert r. induction l as [|x l IH]; intros [|z r] HL H; try discriminate; cbn; [ring|]. rewrite (IH r); [|cbn in HL; lia|intros i Hi; apply (H (S i)); cbn; lia].
  pose proof (H 0%nat ltac:(cbn; lia)) as H0. cbn in H0. rewrite H0. ring.
Qed.
Lemma sq_pos (l : list R) i : (i < length l)%nat -> nth i l 0 <> 0 -> 0 < sq l.
Proof.
  unfold sq. revert i. induction l as [|x l IH]; intros i Hi H; [cbn in Hi; lia|]. cbn. pose proof (sq_nonneg l) as S. unfold sq in S. destruct i as [|i].
  - cbn in H. nra.
  - cbn in Hi, H. specialize (IH i ltac:(lia) H). nra.
Qed.
Lemma moving_viapoint i : 2 * D1 <= D2 -> (i < d)%nat -> eps * D2 < Rabs (nth (d + i) via 0) -> c_viapoint true ts y via vt y' = Err RuntimeError.
Proof.
  intros HD Hi Hm. destruct via_parts as (c1 & c2 & C1 & C2 & T1 & T2 & E & P1 & P2). destruct Dpos as (HD1 & HD2). rewrite E.
  pose proof C1 as (L1 & S1 & S1' & _ & K1). pose proof C2 as (L2 & S2 & S2' & _ & K2). unfold c_append.
  assert (Dc : c_dim c1 = d) by apply S1. assert (Du : c_dim c2 = d) by apply S2. rewrite Dc, Du, Nat.eqb_refl. cbn [must bind].
  destruct (ct_ts c1) as [|a q]; [reflexivity|]. destruct (ct_ts c2) as [|u0 us]; [reflexivity|].
  set (a1 := last (mrows (ct_yds c1)) nil). set (b1 := nth 0 (mrows (ct_yds c2)) nil).
  assert (N : same_rows a1 b1 = false).
  { assert (La : length a1 = d). { unfold a1. rewrite nth_rows_last. pose proof S1' as (_ & R & _). rewrite R. apply (nth_row (k + 1) d _ _ S1'). lia. }
    assert (Lb : length b1 = d) by (unfold b1; apply (nth_row (n - k) d _ _ S2'); unfold n; lia).
    assert (A : forall j, (j < d)%nat -> nth j a1 0 = nth (d + j) via 0 / D1).
    { intros j Hj. destruct (P1 j Hj) as (_ & _ & _ & _ & X & _). unfold a1. rewrite nth_rows_last. pose proof S1' as (_ & R & _). rewrite R. replace (k + 1 - 1)%nat with k by lia. exact X. }
    assert (B : forall j, (j < d)%nat -> nth j b1 0 = nth (d + j) via 0 / D2) by (intros j Hj; destruct (P2 j Hj) as (_ & X & _); exact X).
    pose proof eps_pos as Hep. assert (Bi : eps < Rabs (nth i b1 0)).
    { rewrite (B i Hi). unfold Rdiv. rewrite Rabs_mult, (Rabs_right (/ D2)) by (left; now apply Rinv_0_lt_compat). apply (Rmult_lt_reg_r D2); [trivial|]. rewrite Rmult_assoc, Rinv_l by lra. lra. }
    assert (Ai : eps < Rabs (nth i a1 0)).
    { rewrite (A i Hi). unfold Rdiv. rewrite Rabs_mult, (Rabs_right (/ D1)) by (left; now apply Rinv_0_lt_compat). apply (Rmult_lt_reg_r D1); [trivial|]. rewrite Rmult_assoc, Rinv_l by lra. nra. }
    unfold same_rows. rewrite (is_zero_false a1 i), (is_zero_false b1 i) by (trivial; lia). cbn [orb]. unfold is_approx. destruct (Rle_dec _ _) as [HL|]; [|reflexivity]. exfalso.
    assert (Q : sq (map2 Rminus a1 b1) = (D2 / D1 - 1) * (D2 / D1 - 1) * sq b1).
    { apply sq_scale; [rewrite map2_len by lia; lia|]. intros j Hj. rewrite Lb in Hj. rewrite (map2_nth Rminus a1 b1 j 0 0 0) by lia. rewrite (A j Hj), (B j Hj). field. lra. }
    assert (Hr : 1 <= D2 / D1 - 1). { assert (2 <= D2 / D1); [|lra]. apply (Rmult_le_reg_r D1); [trivial|]. unfold Rdiv. rewrite Rmult_assoc, Rinv_l by lra. lra. }
    assert (Pb : 0 < sq b1). { apply (sq_pos b1 i); [lia|]. intros Z. rewrite Z, Rabs_R0 in Bi. lra. }
    assert (M : Rmin (sq a1) (sq b1) <= sq b1) by apply Rmin_r. rewrite Q in HL. assert (Hee : eps * eps < 1). { assert (eps < 1) by (unfold eps; lra). nra. }
    set (r := D2 / D1 - 1) in *. assert (Hrr : 1 <= r * r) by nra. assert (X : 1 * sq b1 <= r * r * sq b1) by (apply Rmult_le_compat_r; lra).
    assert (Y : eps * eps * Rmin (sq a1) (sq b1) <= eps * eps * sq b1) by (apply Rmult_le_compat_l; nra). assert (W : eps * eps * sq b1 < 1 * sq b1) by (apply Rmult_lt_compat_r; lra). lra. }
  fold a1 b1. rewrite N. rewrite !andb_false_r. cbn [andb negb orb must bind]. reflexivity.
Qed.
End Via.

Lemma viapoint_late debug ts y via vt y' : (forall k, (k < length ts)%nat -> nth k ts 0 < vt) -> length via = (3 * length y)%nat -> length y' = length y ->
  c_viapoint debug ts y via vt y' = Ok c_empty.
Proof.
  intros H Hv Hy. unfold c_viapoint. rewrite Hy, Hv, !Nat.eqb_refl. cbn [must bind].
  assert (S : steps_before ts vt = length ts).
  { clear -H. unfold steps_before. induction ts as [|a ts IH]; [reflexivity|]. cbn [filter length]. pose proof (H 0%nat ltac:(cbn; lia)) as H0. cbn in H0.
    destruct (Rlt_dec a vt); [|lra]. cbn [length]. f_equal. apply IH. intros k Hk. apply (H (S k)). cbn. lia. }
  rewrite S, Nat.leb_refl. reflexivity.
Qed.
Lemma set_misc_ok n d k c m : c_consistent n d k c -> (2 <= n)%nat ->
  (samples n (mcols m) m -> c_consistent n d (mcols m) (c_set_misc c m) /\ ct_misc (c_set_misc c m) = m) /\
  (samples 1 (mcols m) m -> c_consistent n d (mcols m) (c_set_misc c m) /\ forall i j, (i < n)%nat -> at2 (ct_misc (c_set_misc c m)) i j = at2 m 0 j) /\
  (nrows m <> n -> nrows m <> 1%nat -> c_set_misc c m = c).
Proof.
  intros (L & A & B & D & M) Hn. unfold c_set_misc, c_length. rewrite L. split; [|split].
  - intros S. pose proof S as (_ & R & _). unfold nrows. rewrite R, Nat.eqb_refl. split; [|reflexivity]. split; [exact L|]. auto.
  - intros S. pose proof S as (_ & R & W). unfold nrows. rewrite R. destruct (Nat.eqb_spec 1 n); [lia|]. cbn [Nat.eqb]. split.
    + split; [exact L|]. split; [exact A|]. split; [exact B|]. split; [exact D|]. split; [reflexivity|]. cbn [ct_misc mrows]. split; [apply repeat_length|].
      intros r Hr. apply repeat_spec in Hr. subst r. apply W. apply nth_In. lia.
    + intros i j Hi. cbn [ct_misc]. unfold at2. cbn [mrows]. f_equal. apply (repeat_spec n). apply nth_In. now rewrite repeat_length.
  - intros H1 H2. destruct (Nat.eqb_spec (nrows m) n); [contradiction|]. destruct (Nat.eqb_spec (nrows m) 1); [contradiction|reflexivity].
Qed.
Lemma append_gap c u : last (ct_ts c) 0 <> nth 0 (ct_ts u) 0 -> c_append true c u = Err RuntimeError.
Proof.
  intros H. unfold c_append. destruct (Nat.eqb _ _); cbn [must bind]; [|reflexivity]. destruct (ct_ts c) as [|a ts] eqn:Ec; [reflexivity|]. destruct (ct_ts u) as [|u0 us]; [reflexivity|].
  cbn [nth] in H. destruct (Req_EM_T (last (a :: ts) 0) u0); [contradiction|]. reflexivity.
Qed.
Lemma sq_entry (l : list R) i : (i < length l)%nat -> nth i l 0 * nth i l 0 <= sq l.
Proof.
  unfold sq. revert i. induction l as [|x l IH]; intros i Hi; [cbn in Hi; lia|]. pose proof (sq_nonneg l) as S. unfold sq in S. pose proof (Rle_0_sqr x) as X. unfold Rsqr in X. change (rsum (map (fun x => x * x) (x :: l))) with (x * x + rsum (map (fun x => x * x) l)). destruct i as [|i]; cbn [nth].
  - lra.
  - cbn in Hi. specialize (IH i ltac:(lia)). lra.
Qed.
Lemma same_rows_close a b i : same_rows a b = true -> length a = length b -> (i < length a)%nat -> Rabs (nth i a 0 - nth i b 0) <= eps * (2 + sqrt (sq a)).
Proof.
  intros H HL Hi. pose proof eps_pos as He. pose proof (sqrt_pos (sq a)) as Hs. unfold same_rows in H. destruct (is_zero a || is_zero b)%bool.
  - apply andb_true_iff in H. destruct H as (Ha & Hb). unfold is_zero in Ha, Hb. rewrite forallb_forall in Ha, Hb. specialize (Ha _ (nth_In a 0 Hi)). rewrite HL in Hi. specialize (Hb _ (nth_In b 0 Hi)).
    destruct (Rle_dec (Rabs (nth i a 0)) eps) as [A|]; [|discriminate]. destruct (Rle_dec (Rabs (nth i b 0)) eps) as [B|]; [|discriminate].
    pose proof (Rabs_triang (nth i a 0) (- nth i b 0)) as T. rewrite Rabs_Ropp in T. unfold Rminus. nra.
  - unfold is_approx in H. destruct (Rle_dec _ _) as [A|]; [|discriminate]. pose proof (sq_entry (map2 Rminus a b) i ltac:(rewrite map2_len; lia)) as E.
    rewrite (map2_nth Rminus a b i 0 0 0) in E by lia. pose proof (Rmin_l (sq a) (sq b)) as M. pose proof (sq_nonneg a) as Sa. pose proof (sqrt_sqrt (sq a) Sa) as SS.
    assert (Q : Rabs (nth i a 0 - nth i b 0) * Rabs (nth i a 0 - nth i b 0) <= (eps * sqrt (sq a)) * (eps * sqrt (sq a))).
    { rewrite <- Rabs_mult, Rabs_right by (apply Rle_ge; apply (Rle_0_sqr (nth i a 0 - nth i b 0))). replace (eps * sqrt (sq a) * (eps * sqrt (sq a))) with (eps * eps * (sqrt (sq a) * sqrt (sq a))) by ring. rewrite SS.
      assert (eps * eps * Rmin (sq a) (sq b) <= eps * eps * sq a) by (apply Rmult_le_compat_l; [apply (Rle_0_sqr eps)|exact M]). lra. }
    assert (Rabs (nth i a 0 - nth i b 0) <= eps * sqrt (sq a)); [|nra]. pose proof (Rabs_pos (nth i a 0 - nth i b 0)). assert (0 <= eps * sqrt (sq a)) by nra.
    destruct (Rle_dec (Rabs (nth i a 0 - nth i b 0)) (eps * sqrt (sq a))) as [|NL]; [trivial|]. exfalso. apply Rnot_le_lt in NL. pose proof (Rmult_le_0_lt_compat _ _ _ _ H1 H1 NL NL). lra.
Qed.
Lemma append_seam n m d k k' c u r : c_consistent n d k c -> c_consistent m d k' u -> (1 <= n)%nat -> (1 <= m)%nat -> c_append true c u = Ok r ->
  k = k' /\ last (ct_ts c) 0 = nth 0 (ct_ts u) 0 /\ continues n d (ct_ys c) (ct_ys u) /\ continues n d (ct_yds c) (ct_yds u) /\ continues n d (ct_ydds c) (ct_ydds u).
Proof.
  intros (C0 & C1 & C2 & C3 & C4) (U0 & U1 & U2 & U3 & U4) Hn Hm. unfold c_append. destruct (Nat.eqb (c_dim c) (c_dim u)); cbn [must bind]; [|discriminate].
  destruct (ct_ts c) as [|a ts]; [discriminate|]. destruct (ct_ts u) as [|u0 us]; [discriminate|].
  destruct (Req_EM_T (last (a :: ts) 0) u0) as [E|]; [|discriminate]. cbn [negb orb andb].
  assert (W : forall f g : ctraj -> mat, samples n d (f c) -> samples m d (g u) -> same_rows (last (mrows (f c)) nil) (nth 0 (mrows (g u)) nil) = true -> continues n d (f c) (g u)).
  { intros f g Sf Sg H i Hi. pose proof Sf as (_ & L & _). rewrite nth_rows_last, L in H. unfold at2, norm_row.
    apply (same_rows_close _ _ i H); rewrite ?(nth_row n d (f c) (n - 1) Sf), ?(nth_row m d (g u) 0 Sg) by lia; trivial; lia. }
  destruct (same_rows (last (mrows (ct_ys c)) nil) _) eqn:E1; [|discriminate]. destruct (same_rows (last (mrows (ct_yds c)) nil) _) eqn:E2; [|discriminate].
  destruct (same_rows (last (mrows (ct_ydds c)) nil) _) eqn:E3; [|discriminate]. cbn [andb must bind]. destruct (Nat.eqb_spec (c_dim_misc c) (c_dim_misc u)) as [K|]; [|discriminate].
  intros _. destruct C4 as (K1 & _), U4 as (K2 & _). split; [unfold c_dim_misc in K; congruence|]. split; [exact E|]. split; [now apply (W ct_ys ct_ys)|]. split; [now apply (W ct_yds ct_yds)|now apply (W ct_ydds ct_ydds)].
Qed.
