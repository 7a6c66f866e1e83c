(** Proofs about C++ files that are read wrongly, saving, and C++ generators (C99, C100). *)
From Coq Require Import String.
From Verif Require Import Base BaseLemmas FaModel FaProofs2 TrajModel TrajSpec TrajProofs TrajProofs2 TrajProofs3 TrajProofs4 TrajProofs6.
From Verif Require Import CppTrajModel CppTrajSpec CppTrajProofs.
Open Scope R_scope.

(** ** the number of misc variables left out *)
Lemma misc_left_out rnd t : consistent t -> (1 <= length (tj_ts t))%nat -> exists ls c, py_save rnd t = Ok ls /\ c_read ls 0 = Ok c /\
  c_consistent (length (tj_ts t)) (tj_dim t + misc_cols t / 3) 0 c /\
  ((misc_cols t < 3)%nat -> forall k, (k < length (tj_ts t))%nat -> nth k (ct_ts c) 0 = rnd (nth k (tj_ts t) 0) /\
     forall i, (i < tj_dim t)%nat -> at2 (ct_ys c) k i = rnd (at2 (tj_ys t) k i) /\ at2 (ct_yds c) k i = rnd (at2 (tj_yds t) k i) /\
                                   at2 (ct_ydds c) k i = rnd (at2 (tj_ydds t) k i)) /\
  ((2 <= length (tj_ts t))%nat -> (1 <= tj_dim t)%nat -> exists t', py_read ls 0 = Ok t' /\ tj_dim t' = (tj_dim t + misc_cols t / 3)%nat).
Proof.
  intros Ht Hn. destruct (py_save_ok rnd t Ht) as (M & E & Es). destruct (rounded rnd t M Ht E) as (SF & EF). set (F := Mat (mcols M) (map (map rnd) (mrows M))) in *.
  set (n := length (tj_ts t)) in *. set (d := tj_dim t) in *. set (m := misc_cols t) in *.
  assert (Q : (m = 3 * (m / 3) + m mod 3 /\ m mod 3 < 3)%nat) by (split; [now apply Nat.div_mod|now apply Nat.mod_upper_bound]). destruct Q as (Q1 & Q2).
  assert (SF' : samples n (1 + 3 * (d + m / 3) + 0 + m mod 3) F) by (replace (1 + 3 * (d + m / 3) + 0 + m mod 3)%nat with (1 + 3 * d + m)%nat by lia; exact SF).
  destruct (c_read_gen _ _ _ _ _ SF' Hn Q2) as (c & Ec & Cc & Ac). eexists _, c. split; [exact Es|]. split; [exact Ec|]. split; [exact Cc|]. split.
  - intros Hm k Hk. rewrite (Nat.div_small m 3), Nat.add_0_r in Ac by trivial. destruct (Ac k Hk) as (A1 & A2 & _), (EF k Hk) as (G1 & G2 & _). split; [congruence|].
    intros i Hi. destruct (G2 i Hi) as (<- & <- & <-). now apply A2.
  - intros Hn2 Hd. unfold py_read. rewrite (table_ok _ _ _ SF) by lia. cbn [bind]. unfold loadtxt, nrows. pose proof SF as (C & L & _). rewrite C, L.
    destruct (Nat.ltb_spec n 2); [lia|]. destruct (Nat.ltb_spec (1 + 3 * d + m) 2); [lia|].
    assert (X : exists t', from_matrix F 0 = Ok t' /\ tj_dim t' = (d + m / 3)%nat); [|exact X].
    unfold from_matrix. rewrite C. destruct (Nat.eqb_spec (1 + 3 * d + m) 0); [lia|]. destruct (Nat.ltb_spec (1 + 3 * d + m - 1) 0); [lia|].
    replace ((1 + 3 * d + m - 1 - 0) / 3)%nat with (d + m / 3)%nat
      by (replace (1 + 3 * d + m - 1 - 0)%nat with (m mod 3 + (d + m / 3) * 3)%nat by lia; rewrite Nat.div_add, (Nat.div_small (m mod 3)) by lia; lia).
    set (D := (d + m / 3)%nat) in *. assert (B : (3 * D + m mod 3 = 3 * d + m)%nat) by (unfold D; lia). clearbody D.
    assert (T : length (col 0 (mrows F)) = n) by (unfold col; rewrite map_length; exact L).
    pose proof (cols_samples n _ F 1 (1 * D + 1) SF ltac:(lia) ltac:(lia)) as P1. pose proof (cols_samples n _ F (1 * D + 1) (2 * D + 1) SF ltac:(lia) ltac:(lia)) as P2.
    pose proof (cols_samples n _ F (2 * D + 1) (3 * D + 1) SF ltac:(lia) ltac:(lia)) as P3. pose proof (cols_samples n _ F (3 * D + 1) (1 + 3 * d + m) SF ltac:(lia) ltac:(lia)) as P4.
    destruct P1 as (P1 & P1' & _), P2 as (P2 & P2' & _), P3 as (P3 & P3' & _), P4 as (_ & P4' & _).
    unfold new_traj. rewrite T. cbn [rows_of]. unfold nrows. rewrite P1', P4', !Nat.eqb_refl. cbn [column derivative bind]. unfold same_shape, nrows. rewrite P1, P2, P3, P1', P2', P3', !Nat.eqb_refl.
    replace (1 * D + 1 - 1)%nat with D by lia. replace (2 * D + 1 - (1 * D + 1))%nat with D by lia. replace (3 * D + 1 - (2 * D + 1))%nat with D by lia. rewrite Nat.eqb_refl.
    cbn [andb bind]. eexists. split; [reflexivity|]. cbn [tj_dim]. first [reflexivity|rewrite P1; lia].
Qed.

(** ** words that are not numbers *)
Lemma read_words_bad d ws b : In None ws -> exists e, read_words d ws b = Err e.
Proof.
  revert d. induction ws as [|w ws IH]; [contradiction|]. intros d H. cbn [read_words]. destruct w as [x|]; [|eauto]. destruct H as [H|H]; [discriminate|].
  destruct (IH (Some x) H) as (e & E). destruct ws as [|w' ws]; [contradiction|]. rewrite E. exists e. reflexivity.
Qed.
Lemma read_bad d ls l : In l ls -> In None (words l) -> exists e, read_lines d ls = Err e.
Proof.
  revert d. induction ls as [|l' ls IH]; [contradiction|]. intros d [->|H] Hw; cbn [read_lines].
  - destruct (read_words_bad d (words l) (blank l) Hw) as (e & ->). cbn [bind]. eauto.
  - destruct (read_words d (words l') (blank l')) as [[v d']|e]; cbn [bind]; [|eauto]. destruct (IH d' H Hw) as (e & ->). cbn [bind]. eauto.
Qed.
Lemma c_read_bad ls l k : In l ls -> In None (words l) -> exists e, c_read ls k = Err e.
Proof. intros H Hw. unfold c_read, c_load. destruct (read_bad None ls l H Hw) as (e & ->). cbn [bind]. eauto. Qed.

(** ** an empty line at the end *)
Lemma read_lines_app d rows : rows <> [] -> Forall (fun r => r <> []) rows ->
  read_lines d (map (fun r => Line (map Some r) false) rows ++ [empty_line]) = Ok (List.concat rows ++ [last (last rows []) 0])%list.
Proof.
  intros Hne H. revert d. induction H as [|r rows Hr HF IH]; [contradiction|]. intros d. cbn [map app read_lines words blank]. rewrite read_words_ok by trivial. cbn [bind].
  destruct rows as [|r' rows].
  - cbn. now rewrite app_nil_r.
  - rewrite IH by discriminate. cbn [bind]. cbn [List.concat]. now rewrite <- !app_assoc.
Qed.
Lemma chunks_len c n l : length (chunks c n l) = n.
Proof. revert l. induction n as [|n IH]; intros l; cbn; auto. Qed.
Lemma chunks_rows c n l r : (n * c <= length l)%nat -> In r (chunks c n l) -> length r = c.
Proof.
  revert l. induction n as [|n IH]; intros l H Hi; [contradiction|]. cbn in Hi. destruct Hi as [<-|Hi].
  - rewrite firstn_length. cbn in H. lia.
  - apply (IH (skipn c l)); trivial. rewrite skipn_length. cbn in H. lia.
Qed.
Lemma chunks_samples c n l : (n * c <= length l)%nat -> samples n c (Mat c (chunks c n l)).
Proof. intros H. split; [reflexivity|]. split; [apply chunks_len|]. intros r. now apply chunks_rows. Qed.
(** a matrix with too few columns still gives a trajectory *)
Lemma c_read_mat ls M n c : c_load ls = Ok M -> samples n c M -> (1 <= c)%nat -> exists t, c_read ls 0 = Ok t /\ c_dim t = ((c - 1) / 3)%nat /\ length (ct_ts t) = n.
Proof.
  intros E HM Hc. unfold c_read. rewrite E. cbn [bind]. pose proof HM as (C & _). rewrite C. destruct (Nat.eqb_spec c 0); [lia|].
  destruct (Nat.ltb_spec (c - 1) 0); [lia|]. rewrite Nat.sub_0_r. set (d := ((c - 1) / 3)%nat). assert (Hd : (1 + 3 * d <= c)%nat).
  { pose proof (Nat.mul_div_le (c - 1) 3 ltac:(lia)). fold d in H. lia. }
  clearbody d. destruct (block_ok _ _ M 0 1 HM ltac:(lia)) as (b0 & E0 & S0 & _). rewrite E0. cbn [bind].
  destruct (block_ok _ _ M (1 + 0 * d) d HM ltac:(lia)) as (b1 & E1 & S1 & _). rewrite E1. cbn [bind].
  destruct (block_ok _ _ M (1 + 1 * d) d HM ltac:(lia)) as (b2 & E2 & S2 & _). rewrite E2. cbn [bind].
  destruct (block_ok _ _ M (1 + 2 * d) d HM ltac:(lia)) as (b3 & E3 & S3 & _). rewrite E3. cbn [bind].
  destruct (block_ok _ _ M (1 + 3 * d) 0 HM ltac:(lia)) as (b4 & E4 & S4 & _). rewrite E4. cbn [bind].
  assert (L0 : length (col 0 (mrows b0)) = n) by (unfold col; rewrite map_length; apply S0).
  destruct (new_ok n d 0 _ _ _ _ _ L0 S1 S2 S3 S4) as (t & Ec & (Cl & Cy & _) & _). exists t. split; [exact Ec|]. split; [apply Cy|exact Cl].
Qed.
Lemma empty_line_read rnd t ls : consistent t -> (1 <= length (tj_ts t))%nat -> (1 <= tj_dim t)%nat -> misc_cols t = 0%nat -> py_save rnd t = Ok ls ->
  exists c, c_read (ls ++ [empty_line]) 0 = Ok c /\ (c_dim c < tj_dim t)%nat /\ length (ct_ts c) = S (length (tj_ts t)) /\
  py_read (ls ++ [empty_line]) 0 = py_read ls 0.
Proof.
  intros Ht Hn Hd Hm Es. destruct (py_save_ok rnd t Ht) as (M & E & Es'). rewrite Es in Es'. apply ok_inj in Es'. destruct (rounded rnd t M Ht E) as (SF & _).
  set (F := Mat (mcols M) (map (map rnd) (mrows M))) in *. rewrite Hm, Nat.add_0_r in SF. set (n := length (tj_ts t)) in *. set (d := tj_dim t) in *.
  pose proof (samples_forall _ _ _ SF) as HF. pose proof SF as (_ & L & _). subst ls.
  assert (EL : exists v, read_lines None (text_of F ++ [empty_line]) = Ok v /\ length v = (n * (1 + 3 * d) + 1)%nat).
  { eexists. split. apply read_lines_app.
    - intros Z. rewrite Z in L. cbn in L. lia.
    - apply Forall_forall. intros r Hr Z. rewrite Forall_forall in HF. specialize (HF r Hr). rewrite Z in HF. cbn in HF. lia.
    - rewrite app_length, (concat_len (1 + 3 * d)), L by trivial. cbn. lia. }
  destruct EL as (v & Ev & Lv). set (c := (length v / S n)%nat).
  assert (EM : c_load (text_of F ++ [empty_line]) = Ok (Mat c (chunks c (S n) v))).
  { unfold c_load. rewrite Ev. cbn [bind]. rewrite app_length, map_length, L. replace (n + length [empty_line])%nat with (S n) by (cbn; lia). cbn [Nat.eqb negb must bind]. reflexivity. }
  assert (Hc1 : (1 <= c)%nat). { unfold c. apply Nat.div_le_lower_bound; [lia|]. rewrite Lv. nia. }
  assert (Hc2 : (c <= 3 * d)%nat). { unfold c. apply Nat.lt_succ_r. apply Nat.div_lt_upper_bound; [lia|]. rewrite Lv. nia. }
  assert (SM : samples (S n) c (Mat c (chunks c (S n) v))). { apply chunks_samples. unfold c. apply Nat.mul_div_le. lia. }
  destruct (c_read_mat _ _ _ _ EM SM Hc1) as (t' & Er & D' & L'). exists t'. split; [exact Er|]. split; [|split; [exact L'|]].
  - rewrite D'. apply Nat.div_lt_upper_bound; lia.
  - unfold py_read, py_table. rewrite filter_app. cbn [filter full words empty_line]. now rewrite app_nil_r.
Qed.

(** ** saving *)
Lemma save_file_spec writable s f ls ow s' b : save_file writable s f ls ow = (s', b) ->
  (b = true -> files s' f = Some ls /\ (files s f = None \/ ow = true) /\ forall g, g <> f -> files s' g = files s g) /\
  (b = false -> s' = s).
Proof.
  unfold save_file. destruct (files s f) as [old|] eqn:Ef; [destruct ow|]; cbn [negb]; [|intros [= <- <-]; split; [discriminate|trivial]|];
  (destruct (writable f); cbn [negb]; intros [= <- <-]; (split; [|now trivial]); try discriminate; intros _; cbn [put files]; rewrite String.eqb_refl; split; [trivial|]; split; [auto|];
   intros g Hg; apply String.eqb_neq in Hg; now rewrite Hg).
Qed.

(** ** generators *)
Lemma same_new ts ys yds ydds t c : new_traj ts (V2 ys) (Some (V2 yds)) (Some (V2 ydds)) None = Ok t -> c_new ts ys yds ydds no_misc = Ok c -> same_data t c.
Proof.
  unfold new_traj, c_new. destruct (Nat.eqb (length ts) (rows_of (V2 ys))); [|discriminate]. cbn [column bind derivative].
  destruct (same_shape ys yds); [|discriminate]. destruct (same_shape ys ydds); [|discriminate]. cbn [bind]. intros [= <-].
  destruct (must (Nat.eqb (length ts) (nrows ys))); [|discriminate]. cbn [bind]. destruct (must (Nat.eqb (length ts) (nrows yds))); [|discriminate]. cbn [bind].
  destruct (must (Nat.eqb (length ts) (nrows ydds))); [|discriminate]. cbn [bind no_misc mcols Nat.eqb]. destruct (must _); [|discriminate]. cbn [bind].
  destruct (must (Nat.eqb (mcols ys) (mcols yds))); [|discriminate]. cbn [bind]. destruct (must _); [|discriminate]. cbn [bind]. intros [= <-].
  unfold same_data. cbn. repeat split. intros. unfold misc_cols in *. cbn in *. lia.
Qed.
(** both constructors accept the same tables *)
Lemma new_both ts ys yds ydds n d : length ts = n -> samples n d ys -> samples n d yds -> samples n d ydds -> exists t c,
  new_traj ts (V2 ys) (Some (V2 yds)) (Some (V2 ydds)) None = Ok t /\ c_new ts ys yds ydds no_misc = Ok c /\ c_consistent n d 0 c /\ same_data t c.
Proof.
  intros HT A B D. destruct (new_no_misc n d ts ys yds ydds HT A B D) as (c & E & Cc & _).
  assert (T : exists t, new_traj ts (V2 ys) (Some (V2 yds)) (Some (V2 ydds)) None = Ok t).
  { destruct A as (A1 & A2 & _), B as (B1 & B2 & _), D as (D1 & D2 & _). unfold new_traj. cbn [rows_of]. unfold nrows. rewrite HT, A2, Nat.eqb_refl. cbn [column bind derivative].
    unfold same_shape, nrows. rewrite A1, A2, B1, B2, D1, D2, !Nat.eqb_refl. cbn [andb bind]. eauto. }
  destruct T as (t & T). exists t, c. split; [exact T|]. split; [exact E|]. split; [exact Cc|]. exact (same_new _ _ _ _ _ _ T E).
Qed.
Lemma min_jerk_same ts y y' : same_outcome (from_min_jerk ts y y') (c_min_jerk ts y y').
Proof.
  unfold from_min_jerk, c_min_jerk. destruct (Nat.eqb (length y') (length y)); cbn [must bind]; [|exact I]. destruct ts as [|t0 ts]; [exact I|].
  destruct (Req_EM_T (last (t0 :: ts) 0) 0); [exact I|].
  match goal with |- same_outcome (new_traj ?T (V2 ?a) (Some (V2 ?b)) (Some (V2 ?c)) None) _ =>
    destruct (new_both T a b c (length T) (length y) eq_refl) as (t & cc & -> & -> & _ & S) end.
  1-3: apply table_samples. exact S.
Qed.
Lemma polynomial_same ts y v a y' v' a' : same_outcome (from_polynomial ts y v a y' v' a') (c_polynomial ts y v a y' v' a').
Proof.
  unfold from_polynomial, c_polynomial. destruct (forallb _ _); cbn [must bind]; [|exact I]. destruct ts as [|t0 ts]; [exact I|].
  destruct (Req_EM_T (last (t0 :: ts) 0 - t0) 0); [exact I|].
  match goal with |- same_outcome (new_traj ?T (V2 ?a) (Some (V2 ?b)) (Some (V2 ?c)) None) _ =>
    destruct (new_both T a b c (length T) (length y) eq_refl) as (t & cc & E & E' & _ & S) end.
  1-3: split; [reflexivity|]; cbn [mrows]; rewrite map_length; (split; [reflexivity|]); intros r Hr; apply in_map_iff in Hr; destruct Hr as (x & <- & _); now rewrite !map_length, seq_length.
  rewrite E. unfold c_coeffs. unfold p_y, p_yd, p_ydd, coeffs in E'. rewrite E'. exact S.
Qed.
