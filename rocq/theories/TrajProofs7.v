(** Proofs about trajectories: uniform sampling (C85), quadratics (C60). *)
From Verif Require Import Base BaseLemmas TrajModel TrajSpec TrajProofs TrajProofs2 TrajProofs4 TrajProofs5.
Open Scope R_scope.

(** ** uniform sampling *)
Definition uniform (d : R) (t : traj) : Prop := consistent t /\ tj_dt t = Some d /\ equidistant d (tj_ts t).
Definition uniform_call (d : R) (c : tcall) : Prop :=
  good_call c /\
  match c with
  | TAppend u => uniform d u
  | TPrepend u => uniform d u /\ nth 0 (tj_ts u) 0 = 0
  | TPadFront n => (2 <= n)%nat
  | _ => True
  end.
Lemma equi_app d a b : equidistant d a -> equidistant d b -> (a <> [] -> b <> [] -> nth 0 b 0 - last a 0 = d) -> equidistant d (a ++ b).
Proof.
  intros Ha Hb Hab i Hi. rewrite app_length in Hi. destruct (Nat.lt_ge_cases (S i) (length a)) as [H|H].
  - rewrite !app_nth1 by lia. now apply Ha.
  - rewrite (app_nth2 a b) with (n := S i) by lia. destruct (Nat.lt_ge_cases i (length a)) as [H'|H'].
    + rewrite app_nth1 by lia. replace (S i - length a)%nat with 0%nat by lia. replace i with (length a - 1)%nat by lia. rewrite <- last_nth'.
      apply Hab; intros E; rewrite E in *; cbn in *; lia.
    + rewrite app_nth2 by lia. replace (S i - length a)%nat with (S (i - length a)) by lia. apply Hb. lia.
Qed.
Lemma equi_shift d c l : equidistant d l -> equidistant d (shifted c l).
Proof. intros H i Hi. unfold shifted in *. rewrite map_length in Hi. rewrite !nth_map0 by lia. specialize (H i Hi). lra. Qed.
Lemma equi_cut d a b (l : list R) : equidistant d l -> equidistant d (firstn b (skipn a l)).
Proof.
  intros H i Hi. rewrite firstn_length, skipn_length in Hi. rewrite !nth_cut by lia. replace (a + S i)%nat with (S (a + i)) by lia. apply H. lia.
Qed.
Lemma do_crop_uniform d t s e t' r : uniform d t -> do_crop t s e = (t', r) -> tj_dt t' = Some d /\ equidistant d (tj_ts t').
Proof.
  intros (_ & Hd & He) E. unfold do_crop in E. destruct (tj_misc t) as [[l|m]|]; injection E as <- <-; cbn; (split; [trivial|]); unfold slice; now apply equi_cut.
Qed.
Lemma append_uniform d t u t' : uniform d t -> consistent u -> equidistant d (tj_ts u) -> append t u = (t', Ok tt) -> tj_dt t' = Some d /\ equidistant d (tj_ts t').
Proof.
  intros (Ht & Hd & He) Cu Hu E. unfold append in E. destruct (tj_ts u) as [|u0 us] eqn:Eu; [discriminate|]. destruct (tj_ts t) as [|t0 tts] eqn:Et; [discriminate|]. rewrite Hd in E.
  assert (J : tj_dt t' = tj_dt t /\ tj_ts t' = ((t0 :: tts) ++ map (fun x => x - u0 + (last (t0 :: tts) 0 + d)) (u0 :: us))%list).
  { unfold join in E. destruct (concat (tj_ys t) (tj_ys u)); [|discriminate]. destruct (concat (tj_yds t) (tj_yds u)); [|discriminate]. destruct (concat (tj_ydds t) (tj_ydds u)); [|discriminate].
    destruct (concat_misc _ _); [|discriminate]. injection E as <-. split; reflexivity. }
  destruct J as [J1 J2]. split; [congruence|]. rewrite J2. apply equi_app; [exact He| |].
  - assert (X : map (fun x => x - u0 + (last (t0 :: tts) 0 + d)) (u0 :: us) = shifted (last (t0 :: tts) 0 + d - u0) (u0 :: us)) by (apply map_ext; intros x; lra).
    rewrite X. now apply equi_shift.
  - intros _ _. cbn [map nth]. lra.
Qed.
Lemma prepend_uniform d t u t' : uniform d t -> uniform d u -> nth 0 (tj_ts u) 0 = 0 -> prepend t u = (t', Ok tt) -> tj_dt t' = Some d /\ equidistant d (tj_ts t').
Proof.
  intros (Ht & Hd & He) (Cu & Hdu & Hu) H0 E. unfold prepend, set_start_time_to_zero, duration in E. destruct (tj_ts t) as [|t0 tts] eqn:Et; [discriminate|].
  destruct (tj_ts u) as [|u0 us] eqn:Eu; [discriminate|]. rewrite Hdu in E. cbn [nth] in H0. subst u0.
  set (tz := set_ts t (map (fun x => x - t0) (t0 :: tts))) in *.
  assert (J : tj_dt t' = tj_dt t /\ tj_ts t' = ((0 :: us) ++ map (fun x => x + (last (0 :: us) 0 - 0 + d)) (tj_ts tz))%list).
  { unfold join in E. destruct (concat (tj_ys u) (tj_ys tz)); [|discriminate]. destruct (concat (tj_yds u) (tj_yds tz)); [|discriminate]. destruct (concat (tj_ydds u) (tj_ydds tz)); [|discriminate].
    destruct (concat_misc _ _); [|discriminate]. injection E as <-. split; reflexivity. }
  destruct J as [J1 J2]. split; [congruence|]. rewrite J2. unfold tz. cbn [set_ts tj_ts]. rewrite map_map. apply equi_app; [exact Hu| |].
  - assert (X : map (fun x => x - t0 + (last (0 :: us) 0 - 0 + d)) (t0 :: tts) = shifted (last (0 :: us) 0 + d - t0) (t0 :: tts)) by (apply map_ext; intros x; lra).
    rewrite X. now apply equi_shift.
  - intros _ _. cbn [map nth]. lra.
Qed.
Lemma padding_uniform d t n y u : consistent t -> tj_dt t = Some d -> (forall y', y = Ok y' -> length y' = tj_dim t) -> padding t n y = Ok u ->
  consistent u /\ equidistant d (tj_ts u) /\ tj_dt u = dt_mean (tj_ts u) /\ length (tj_ts u) = n /\ ((1 <= n)%nat -> nth 0 (tj_ts u) 0 = 0).
Proof.
  intros Ht Hd Hy E. split; [eapply padding_consistent; eassumption|]. destruct (padding_misc _ _ _ _ E) as [_ T]. rewrite Hd in T. rewrite T.
  split; [apply arange_equi|]. split.
  - destruct y as [y|e]; [|unfold padding in E; destruct (arange n (tj_dt t)); discriminate].
    destruct (Req_dec d 0) as [->|Hd0]; [unfold padding, arange in E; rewrite Hd in E; destruct (Req_EM_T 0 0); [discriminate|contradiction]|].
    rewrite (padding_eq t n y d Ht (Hy y eq_refl) Hd Hd0) in E. apply ok_inj in E. subst u. reflexivity.
  - split; [now rewrite map_length, seq_length|]. intros Hn. rewrite nth_map_seq by lia. change (INR 0) with 0. lra.
Qed.
Lemma do_uniform d t c t' : uniform d t -> uniform_call d c -> t_do t c = (t', Ok tt) -> uniform d t'.
Proof.
  intros Hu (Hg & Hc) E. pose proof Hu as (Ht & Hd & He). destruct (do_consistent t c t' Ht Hg E) as (Ct & _). split; [exact Ct|].
  destruct c as [s e|s e| |a|u|u|n|n| |f]; cbn in E.
  - unfold crop in E. destruct (tj_ts t) eqn:Et; [injection E as <-; rewrite Et; auto|]. destruct (Z.leb e s); [discriminate|]. eapply do_crop_uniform; eassumption.
  - unfold crop_times in E. destruct (tj_ts t) as [|t0 l] eqn:Et; [injection E as <-; rewrite Et; auto|]. destruct (Rle_dec e s); [discriminate|].
    destruct (Rlt_dec _ s); [injection E as <-; rewrite Et; auto|]. destruct (Rlt_dec e t0); [injection E as <-; rewrite Et; auto|]. eapply do_crop_uniform; eassumption.
  - unfold set_start_time_to_zero in E. destruct (tj_ts t) as [|t0 l] eqn:Et; [discriminate|]. assert (X : t' = set_ts t (shifted (- t0) (t0 :: l))) by (injection E as <-; reflexivity).
    rewrite X. cbn [set_ts tj_dt tj_ts]. split; [trivial|]. now apply equi_shift.
  - unfold set_misc in E. destruct (Nat.eqb _ _); [|discriminate]. injection E as <-. cbn. auto.
  - cbn in Hc. eapply append_uniform; [exact Hu|apply Hc|apply Hc|exact E].
  - cbn in Hc. destruct Hc as (H1 & H2). exact (prepend_uniform d t u t' Hu H1 H2 E).
  - unfold pad_front in E. destruct (padding t n (y_init t)) as [u|] eqn:Ep; [|discriminate]. cbn in Hc.
    destruct (padding_uniform d t n _ u Ht Hd (fun y => row_dim t 0 y Ht) Ep) as (U1 & U2 & U3 & U4 & U5).
    eapply prepend_uniform; [exact Hu| | |exact E]; [|apply U5; lia]. split; [exact U1|]. split; [|exact U2]. rewrite U3. apply dt_mean_equi; [exact U2|lia].
  - unfold pad_end in E. destruct (padding t n (y_final t)) as [u|] eqn:Ep; [|discriminate].
    destruct (padding_uniform d t n _ u Ht Hd (fun y => row_dim t _ y Ht) Ep) as (U1 & U2 & _). eapply append_uniform; eassumption.
  - unfold recompute_derivatives in E. destruct (diffnc (tj_ys t) (tj_dt t)); [|discriminate]. destruct (diffnc a (tj_dt t)); [|discriminate]. injection E as <-. cbn. auto.
  - unfold low_pass, recompute_derivatives in E. destruct (f _ (tj_ys t)); [|discriminate]. cbn [set_data tj_ys tj_dt tj_ts tj_misc] in E. destruct (diffnc a (tj_dt t)); [|discriminate].
    destruct (diffnc a0 (tj_dt t)); [|discriminate]. injection E as <-. cbn. auto.
Qed.
Lemma run_uniform d cs t t' : uniform d t -> Forall (uniform_call d) cs -> t_run t cs = (t', Ok tt) -> uniform d t'.
Proof.
  revert t. induction cs as [|c cs IH]; intros t Ht Hc E; cbn in E; [now injection E as <-|].
  inversion Hc as [|? ? Hc1 Hc2]; subst. destruct (t_do t c) as [t1 [[]|]] eqn:E1; [|discriminate]. eapply IH; [|exact Hc2|exact E]. eapply do_uniform; eassumption.
Qed.
Lemma uniform_fresh d t : uniform d t -> (2 <= length (tj_ts t))%nat -> fresh_dt t.
Proof. intros (_ & H1 & H2) Hn. apply fresh_iff. rewrite H1. symmetry. now apply dt_mean_equi. Qed.
Lemma new_fresh ts ys yds ydds misc t : new_traj ts ys yds ydds misc = Ok t -> fresh_dt t /\ tj_ts t = ts.
Proof.
  intros E. unfold new_traj in E. destruct (Nat.eqb _ _); [|discriminate]. destruct (column _ _); [|discriminate]. cbn [bind] in E.
  destruct (derivative _ _ _ _ _); [|discriminate]. cbn [bind] in E. destruct (derivative _ _ _ _ _); [|discriminate]. cbn [bind] in E.
  destruct (match misc with Some _ => _ | None => _ end); [|discriminate]. cbn [bind] in E. injection E as <-. split; [now apply fresh_iff|reflexivity].
Qed.

(** ** trajectories whose derivatives are computed *)
Lemma new_derived n c ts ys d : samples n c ys -> length ts = n -> (3 <= n)%nat -> equidistant d ts -> d <> 0 -> exists t,
  new_traj ts (V2 ys) None None None = Ok t /\ consistent t /\ tj_ys t = ys /\ tj_ts t = ts /\
  forall i, (i < c)%nat ->
    (forall k, (1 <= k)%nat -> (S k < n)%nat -> at2 (tj_yds t) k i = (at2 ys (S k) i - at2 ys (k - 1) i) / (2 * d) /\
                                              at2 (tj_ydds t) k i = (at2 (tj_yds t) (S k) i - at2 (tj_yds t) (k - 1) i) / (2 * d)) /\
    at2 (tj_yds t) 0 i = at2 (tj_yds t) 1 i /\ at2 (tj_yds t) (n - 1) i = at2 (tj_yds t) (n - 2) i /\
    at2 (tj_ydds t) 0 i = at2 (tj_ydds t) 1 i /\ at2 (tj_ydds t) (n - 1) i = at2 (tj_ydds t) (n - 2) i.
Proof.
  intros Hy Hl Hn He Hd. destruct (diffnc_entries n c ys d Hy Hn Hd) as (yds & E1 & S1 & X1). destruct (diffnc_entries n c yds d S1 Hn Hd) as (ydds & E2 & S2 & X2).
  unfold new_traj. cbn [rows_of]. unfold nrows. pose proof Hy as (C & N & _). rewrite Hl, N, Nat.eqb_refl. cbn [column bind derivative].
  rewrite (dt_mean_equi ts d He) by lia. rewrite E1. cbn [bind]. rewrite E2. cbn [bind]. eexists. split; [reflexivity|].
  split. { unfold consistent. cbn. rewrite Hl, C. split; [trivial|]. split; [trivial|]. split; [trivial|]. discriminate. }
  cbn. split; [reflexivity|]. split; [reflexivity|]. intros i Hi. destruct (X1 i Hi) as (A1 & A2 & A3), (X2 i Hi) as (B1 & B2 & B3).
  split; [|auto]. intros k H1 H2. split; [now apply A1|now apply B1].
Qed.
Lemma quadratic_exact (a b c t d : R) : d <> 0 ->
  ((a + b * (t + d) + c * (t + d) ^ 2) - (a + b * (t - d) + c * (t - d) ^ 2)) / (2 * d) = b + 2 * c * t.
Proof. intros H. field. exact H. Qed.
Lemma new_quadratic n c ts ys d i (q0 q1 q2 : R) t : samples n c ys -> length ts = n -> (3 <= n)%nat -> equidistant d ts -> d <> 0 -> (i < c)%nat ->
  (forall k, (k < n)%nat -> at2 ys k i = q0 + q1 * nth k ts 0 + q2 * nth k ts 0 ^ 2) -> new_traj ts (V2 ys) None None None = Ok t ->
  (forall k, (1 <= k)%nat -> (S k < n)%nat -> at2 (tj_yds t) k i = q1 + 2 * q2 * nth k ts 0) /\
  (forall k, (2 <= k)%nat -> (S (S k) < n)%nat -> at2 (tj_ydds t) k i = 2 * q2).
Proof.
  intros Hy Hl Hn He Hd Hi Hq E. destruct (new_derived n c ts ys d Hy Hl Hn He Hd) as (t' & E' & _ & _ & _ & X). rewrite E' in E. injection E as ->.
  destruct (X i Hi) as (A & _).
  assert (T : forall k, (1 <= k)%nat -> (S k < n)%nat -> nth (S k) ts 0 = nth k ts 0 + d /\ nth (k - 1) ts 0 = nth k ts 0 - d).
  { intros k H1 H2. pose proof (He k ltac:(lia)) as P1. pose proof (He (k - 1)%nat ltac:(lia)) as P2. replace (S (k - 1)) with k in P2 by lia. lra. }
  assert (V : forall k, (1 <= k)%nat -> (S k < n)%nat -> at2 (tj_yds t) k i = q1 + 2 * q2 * nth k ts 0).
  { intros k H1 H2. rewrite (proj1 (A k H1 H2)), !Hq by lia. destruct (T k H1 H2) as (-> & ->). now apply quadratic_exact. }
  split; [exact V|]. intros k H1 H2. rewrite (proj2 (A k ltac:(lia) ltac:(lia))), !V by lia. destruct (T k ltac:(lia) ltac:(lia)) as (-> & ->). field. exact Hd.
Qed.
