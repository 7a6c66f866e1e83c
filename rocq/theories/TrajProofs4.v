(** Proofs about trajectories: time steps, concatenation, cropping (C57, C58, C85). *)
From Verif Require Import Base BaseLemmas TrajModel TrajSpec TrajProofs TrajProofs2.
Open Scope R_scope.

Lemma last_nth' (l : list R) d : last l d = nth (length l - 1) l d.
Proof. induction l as [|a [|b l] IH]; [reflexivity|reflexivity|]. cbn [last length] in *. rewrite IH. cbn [length]. now rewrite !Nat.sub_succ, !Nat.sub_0_r. Qed.
Lemma diffs_len l : length (diffs l) = (length l - 1)%nat.
Proof. induction l as [|a [|b l] IH]; [reflexivity|reflexivity|]. change (diffs (a :: b :: l)) with ((b - a) :: diffs (b :: l)). cbn [length] in *. rewrite IH. lia. Qed.
Lemma diffs_sum a l : rsum (diffs (a :: l)) = last (a :: l) 0 - a.
Proof.
  revert a. induction l as [|b l IH]; intros a; [cbn; lra|]. change (diffs (a :: b :: l)) with ((b - a) :: diffs (b :: l)).
  change (last (a :: b :: l) 0) with (last (b :: l) 0). cbn [rsum]. rewrite IH. lra.
Qed.
Lemma dt_mean_eq ts : dt_mean ts = match length ts with O | 1%nat => None | S n => Some ((last ts 0 - nth 0 ts 0) / INR n) end.
Proof.
  destruct ts as [|a [|b l]]; [reflexivity|reflexivity|]. unfold dt_mean. pose proof (diffs_len (a :: b :: l)) as L. pose proof (diffs_sum a (b :: l)) as S.
  destruct (diffs (a :: b :: l)) as [|x d]; [cbn in L; lia|]. rewrite S, L. cbn [nth length]. rewrite Nat.sub_succ, Nat.sub_0_r. reflexivity.
Qed.
Lemma fresh_iff t : fresh_dt t <-> tj_dt t = dt_mean (tj_ts t).
Proof. unfold fresh_dt. now rewrite dt_mean_eq. Qed.
Lemma dt_mean_pos ts d : increasing ts -> dt_mean ts = Some d -> 0 < d.
Proof.
  intros Hi E. rewrite dt_mean_eq in E. destruct (length ts) as [|[|n]] eqn:L; try discriminate. injection E as <-. rewrite last_nth'.
  assert (H : nth 0 ts 0 < nth (length ts - 1) ts 0) by (apply Hi; lia). apply Rdiv_lt_0_compat; [lra|]. change (0 < INR (S n)). apply lt_0_INR. lia.
Qed.
Lemma dt_mean_equi ts d : equidistant d ts -> (2 <= length ts)%nat -> dt_mean ts = Some d.
Proof.
  intros He Hn. assert (H : forall k, (k < length ts)%nat -> nth k ts 0 = nth 0 ts 0 + INR k * d).
  { induction k as [|k IH]; intros Hk; [cbn; lra|]. rewrite S_INR. specialize (IH ltac:(lia)). specialize (He k Hk). lra. }
  rewrite dt_mean_eq, last_nth'. destruct (length ts) as [|[|n]] eqn:L; [lia|lia|]. f_equal. rewrite H by lia.
  replace (S (S n) - 1)%nat with (S n) by lia. assert (0 < INR (S n)) by (apply lt_0_INR; lia). field. lra.
Qed.
Lemma equi_increasing ts d : equidistant d ts -> 0 < d -> increasing ts.
Proof.
  intros He Hd i j Hij Hj. assert (H : forall k, (k < length ts)%nat -> nth k ts 0 = nth 0 ts 0 + INR k * d).
  { induction k as [|k IH]; intros Hk; [cbn; lra|]. rewrite S_INR. specialize (IH ltac:(lia)). specialize (He k Hk). lra. }
  rewrite (H i), (H j) by lia. assert (INR i < INR j) by now apply lt_INR. nra.
Qed.
Lemma nth_map0 (f : R -> R) l k : (k < length l)%nat -> nth k (map f l) 0 = f (nth k l 0).
Proof. intros H. rewrite (nth_indep _ 0 (f 0)) by (rewrite map_length; trivial). apply map_nth. Qed.

(** ** increasing lists *)
Lemma increasing_map l c : increasing l -> increasing (map (fun x => x + c) l).
Proof. intros H i j Hij Hj. rewrite map_length in Hj. rewrite !nth_map0 by lia. specialize (H i j Hij Hj). lra. Qed.
Lemma increasing_app a b : increasing (a ++ b) <-> increasing a /\ increasing b /\ (a <> [] -> b <> [] -> last a 0 < nth 0 b 0).
Proof.
  split.
  - intros H. split; [|split].
    + intros i j Hij Hj. specialize (H i j Hij). rewrite app_length in H. specialize (H ltac:(lia)). now rewrite !app_nth1 in H by lia.
    + intros i j Hij Hj. specialize (H (length a + i)%nat (length a + j)%nat ltac:(lia)). rewrite app_length in H. specialize (H ltac:(lia)).
      rewrite !app_nth2 in H by lia. replace (length a + i - length a)%nat with i in H by lia. now replace (length a + j - length a)%nat with j in H by lia.
    + intros Ha Hb. destruct a as [|x a']; [contradiction|]. destruct b as [|y b']; [contradiction|]. specialize (H (length (x :: a') - 1)%nat (length (x :: a')) ltac:(cbn; lia)).
      rewrite app_length in H. specialize (H ltac:(cbn; lia)). rewrite app_nth1 in H by (cbn; lia). rewrite app_nth2, Nat.sub_diag in H by lia. now rewrite last_nth'.
  - intros (Ha & Hb & Hab) i j Hij Hj. rewrite app_length in Hj. destruct (Nat.lt_ge_cases j (length a)) as [H|H].
    + rewrite !app_nth1 by lia. now apply Ha.
    + rewrite (app_nth2 a b) with (n := j) by lia. destruct (Nat.lt_ge_cases i (length a)) as [H'|H'].
      * rewrite app_nth1 by lia. assert (Na : a <> []) by (intros ->; cbn in *; lia). assert (Nb : b <> []) by (intros ->; cbn in *; lia).
        specialize (Hab Na Nb). rewrite last_nth' in Hab.
        assert (A : nth i a 0 <= nth (length a - 1) a 0). { destruct (Nat.eq_dec i (length a - 1)) as [->|]; [lra|]. left. apply Ha; lia. }
        assert (B : nth 0 b 0 <= nth (j - length a) b 0). { destruct (Nat.eq_dec (j - length a) 0) as [->|]; [lra|]. left. apply Hb; lia. } lra.
      * rewrite app_nth2 by lia. apply Hb; lia.
Qed.

(** ** append and prepend *)
Definition shifted (c : R) (l : list R) : list R := map (fun x => x + c) l.
Lemma append_ok t u dt : consistent t -> consistent u -> joinable t u -> tj_ts t <> [] -> tj_ts u <> [] -> tj_dt t = Some dt ->
  exists t', append t u = (t', Ok tt) /\ consistent t' /\ joined t u t' /\ tj_dim t' = tj_dim t /\ tj_dt t' = tj_dt t /\
    tj_ts t' = (tj_ts t ++ shifted (last (tj_ts t) 0 + dt - nth 0 (tj_ts u) 0) (tj_ts u))%list.
Proof.
  intros Ht Hu (Hd & Hm) Nt Nu Hdt. unfold append. destruct (tj_ts u) as [|u0 us] eqn:Eu; [contradiction|]. destruct (tj_ts t) as [|t0 tts] eqn:Et; [contradiction|].
  rewrite Hdt. destruct (join_total t ((t0 :: tts) ++ map (fun x => x - u0 + (last (t0 :: tts) 0 + dt)) (u0 :: us)) t u Ht Hu Hd Hm) as (t' & E & J & T & D & DT).
  exists t'. split; [exact E|]. split.
  - eapply join_consistent; [exact Ht|exact Hu| |reflexivity|exact E]. rewrite app_length, map_length, Et, Eu. reflexivity.
  - split; [exact J|]. split; [exact D|]. split; [congruence|]. rewrite T. f_equal. apply map_ext. intros x. cbn [nth]. lra.
Qed.
Lemma append_increasing (t u : list R) dt : increasing t -> increasing u -> 0 < dt -> increasing (t ++ shifted (last t 0 + dt - nth 0 u 0) u).
Proof.
  intros Ht Hu Hd. apply increasing_app. split; [trivial|]. split; [now apply increasing_map|]. intros _ Hb. destruct u as [|u0 us]; [contradiction|]. cbn [shifted map nth]. lra.
Qed.
Lemma prepend_ok t u dt : consistent t -> consistent u -> joinable t u -> tj_ts t <> [] -> tj_ts u <> [] -> tj_dt u = Some dt ->
  exists t', prepend t u = (t', Ok tt) /\ consistent t' /\ joined u t t' /\ tj_dim t' = tj_dim t /\ tj_dt t' = tj_dt t /\
    tj_ts t' = (tj_ts u ++ shifted (last (tj_ts u) 0 - nth 0 (tj_ts u) 0 + dt - nth 0 (tj_ts t) 0) (tj_ts t))%list.
Proof.
  intros Ht Hu (Hd & Hm) Nt Nu Hdt. unfold prepend, set_start_time_to_zero, duration. destruct (tj_ts u) as [|u0 us] eqn:Eu; [contradiction|]. destruct (tj_ts t) as [|t0 tts] eqn:Et; [contradiction|].
  rewrite Hdt. set (tz := set_ts t (map (fun x => x - t0) (t0 :: tts))).
  assert (Hz : consistent tz). { destruct Ht as (H1 & H2 & H3 & H4). rewrite Et in *. unfold tz, consistent. cbn [set_ts tj_ts tj_dim tj_ys tj_yds tj_ydds tj_misc]. rewrite map_length. auto. }
  destruct (join_total tz ((u0 :: us) ++ map (fun x => x + (last (u0 :: us) 0 - u0 + dt)) (tj_ts tz)) u tz Hu Hz (eq_sym Hd) (same_misc_sym _ _ Hm)) as (t' & E & J & T & D & DT).
  exists t'. split; [exact E|]. split.
  - eapply join_consistent; [exact Hu|exact Hz| |exact (eq_sym Hd)|exact E]. rewrite app_length, map_length, Eu. reflexivity.
  - split; [exact J|]. split; [exact D|]. split; [exact DT|]. rewrite T. f_equal. unfold tz. cbn [set_ts tj_ts]. rewrite map_map. apply map_ext. intros x. cbn [nth]. lra.
Qed.
Lemma joinable_self t : joinable t t.
Proof. split; [reflexivity|]. unfold same_misc. destruct (tj_misc t) as [[l|m]|]; auto. Qed.
Lemma prepend_self_ok t dt : consistent t -> tj_ts t <> [] -> tj_dt t = Some dt ->
  exists t', prepend_self t = (t', Ok tt) /\ consistent t' /\ joined t t t' /\ tj_dim t' = tj_dim t /\ tj_dt t' = tj_dt t /\
    let ts := shifted (last (tj_ts t) 0 - 2 * nth 0 (tj_ts t) 0 + dt) (tj_ts t) in tj_ts t' = (ts ++ ts)%list.
Proof.
  intros Ht Nt Hdt. unfold prepend_self, set_start_time_to_zero, duration. destruct (tj_ts t) as [|t0 tts] eqn:Et; [contradiction|].
  cbn [set_ts tj_ts tj_dt]. rewrite Hdt. cbn [map].
  set (tsz := t0 - t0 :: map (fun x => x - t0) tts). set (t1 := set_ts _ _).
  assert (Hz : consistent t1). { destruct Ht as (H1 & H2 & H3 & H4). rewrite Et in *. unfold t1, consistent, tsz. cbn [set_ts tj_ts tj_dim tj_ys tj_yds tj_ydds tj_misc]. cbn [map length] in *. rewrite !map_length. auto. }
  destruct (join_total t1 (tj_ts t1 ++ tj_ts t1) t1 t1 Hz Hz eq_refl (proj2 (joinable_self t1))) as (t' & E & J & T & D & DT).
  exists t'. split; [exact E|]. split.
  - eapply join_consistent; [exact Hz|exact Hz| |reflexivity|exact E]. now rewrite app_length.
  - split; [exact J|]. split; [exact D|]. split; [now rewrite DT|]. cbv zeta.
    assert (Q : tj_ts t1 = shifted (last (t0 :: tts) 0 - 2 * nth 0 (t0 :: tts) 0 + dt) (t0 :: tts)).
    { assert (La : forall b, last (map (fun x => x - t0) (b :: tts)) 0 = last (b :: tts) 0 - t0).
      { clear. induction tts as [|a l IH]; intros b; [reflexivity|]. cbn [map last] in *. exact (IH a). }
      specialize (La t0). change (map (fun x => x - t0) (t0 :: tts)) with tsz in La. unfold t1. cbn [set_ts tj_ts]. rewrite La. cbn [nth].
      unfold tsz, shifted. cbn [map]. f_equal; [lra|]. rewrite map_map. apply map_ext. intros x. lra. }
    rewrite T, Q. reflexivity.
Qed.
Lemma twice_not_increasing (l : list R) : l <> [] -> ~ increasing (l ++ l).
Proof.
  intros N H. destruct l as [|a l]; [contradiction|]. assert (Q := H 0%nat (S (length l)) ltac:(lia)).
  rewrite (app_nth2 (a :: l) (a :: l) 0 (n := S (length l))) in Q by (cbn; lia). cbn [length] in Q. rewrite Nat.sub_diag in Q. cbn [nth List.app] in Q.
  assert (a < a); [apply Q; cbn; rewrite app_length; cbn; lia|lra].
Qed.
Lemma prepend_increasing (t u : list R) dt : increasing t -> increasing u -> t <> [] -> u <> [] ->
  (increasing (u ++ shifted (last u 0 - nth 0 u 0 + dt - nth 0 t 0) t) <-> nth 0 u 0 < dt).
Proof.
  intros Ht Hu Nt Nu. rewrite increasing_app. destruct t as [|t0 ts]; [contradiction|]. cbn [shifted map nth].
  split.
  - intros (_ & _ & H). specialize (H Nu ltac:(discriminate)). lra.
  - intros H. split; [trivial|]. split; [exact (increasing_map (t0 :: ts) _ Ht)|]. intros _ _. lra.
Qed.

(** ** cropping *)
Lemma slice_nat {A} (l : list A) a b : (a <= length l)%nat -> (b <= length l)%nat -> slice (Z.of_nat a) (Z.of_nat b) l = firstn (b - a) (skipn a l).
Proof.
  intros Ha Hb. unfold slice, slice_ix. destruct (Z.ltb_spec (Z.of_nat a) 0); [lia|]. destruct (Z.ltb_spec (Z.of_nat b) 0); [lia|].
  rewrite !Nat2Z.id, !Nat.min_l by trivial. reflexivity.
Qed.
Lemma do_crop_keeps t a b : consistent t -> (a <= length (tj_ts t))%nat -> (b <= length (tj_ts t))%nat -> (forall l, tj_misc t <> Some (V1 l)) ->
  exists t', do_crop t (Z.of_nat a) (Z.of_nat b) = (t', Ok tt) /\ keeps_rows t t' a b.
Proof.
  intros ((_ & N1 & _) & (_ & N2 & _) & (_ & N3 & _) & H4) Ha Hb Hm. unfold do_crop, mslice.
  assert (E : forall m, tj_misc t = Some (V2 m) -> slice (Z.of_nat a) (Z.of_nat b) (mrows m) = firstn (b - a) (skipn a (mrows m))).
  { intros m Em. destruct (H4 _ Em) as (_ & Hl). cbn in Hl. apply slice_nat; lia. }
  rewrite !slice_nat by lia.
  destruct (tj_misc t) as [[l|m]|] eqn:Em; [now destruct (Hm l)| |]; (eexists; split; [reflexivity|]); unfold keeps_rows; cbn [set_data tj_ts tj_ys tj_yds tj_ydds tj_misc tj_dim mrows];
    rewrite Em; [rewrite (E m eq_refl)|]; now repeat split.
Qed.
Lemma crop_index t a b : consistent t -> (a < b)%nat -> (b <= length (tj_ts t))%nat -> (forall l, tj_misc t <> Some (V1 l)) ->
  exists t', crop t (Z.of_nat a) (Z.of_nat b) = (t', Ok tt) /\ keeps_rows t t' a b.
Proof.
  intros Ht Hab Hb Hm. unfold crop. destruct (tj_ts t) eqn:Et; [cbn in Hb; lia|]. destruct (Z.leb_spec (Z.of_nat b) (Z.of_nat a)); [lia|].
  rewrite <- Et in *. apply do_crop_keeps; trivial; lia.
Qed.
Lemma find_ge_spec l x : match find_ge l x with
  | Some k => (k < length l)%nat /\ x <= nth k l 0 /\ forall i, (i < k)%nat -> nth i l 0 < x
  | None => forall i, (i < length l)%nat -> nth i l 0 < x
  end.
Proof.
  induction l as [|a l IH]; cbn; [intros; lia|]. destruct (Rle_dec x a) as [H|H]; [split; [lia|split; [trivial|intros; lia]]|].
  destruct (find_ge l x) as [k|]; cbn.
  - destruct IH as (H1 & H2 & H3). split; [lia|]. split; [trivial|]. intros [|i] Hi; [lra|]. apply H3. lia.
  - intros [|i] Hi; [lra|]. apply IH. lia.
Qed.
Lemma argmax_spec l x : increasing l -> l <> [] -> x <= last l 0 -> (argmax_ge l x < length l)%nat /\ forall i, (i < length l)%nat -> (argmax_ge l x <= i)%nat <-> x <= nth i l 0.
Proof.
  intros Hi Hl Hx. unfold argmax_ge. pose proof (find_ge_spec l x) as F. destruct (find_ge l x) as [k|].
  - destruct F as (F1 & F2 & F3). split; [trivial|]. intros i Hil. split.
    + intros H. destruct (Nat.eq_dec k i) as [->|]; [trivial|]. specialize (Hi k i ltac:(lia) Hil). lra.
    + intros H. destruct (Nat.lt_ge_cases i k) as [H'|H']; [|trivial]. specialize (F3 i H'). lra.
  - exfalso. rewrite last_nth' in Hx. destruct l as [|a l']; [contradiction|]. specialize (F (length (a :: l') - 1)%nat ltac:(cbn; lia)). lra.
Qed.
(** the rows kept, whatever the interval *)
Lemma crop_times_rows t s e : consistent t -> increasing (tj_ts t) -> tj_ts t <> [] -> (forall l, tj_misc t <> Some (V1 l)) ->
  s < e -> s <= last (tj_ts t) 0 -> nth 0 (tj_ts t) 0 <= e -> exists t' a b,
  crop_times t s e = (t', Ok tt) /\ keeps_rows t t' a b /\ (a <= length (tj_ts t))%nat /\ (b < length (tj_ts t))%nat /\
  forall i, (i < length (tj_ts t))%nat -> (a <= i < b)%nat <-> s <= nth i (tj_ts t) 0 < e /\ (last (tj_ts t) 0 < e -> (S i < length (tj_ts t))%nat).
Proof.
  intros Ht Hi Hne Hm Hse Hs He. unfold crop_times. destruct (tj_ts t) as [|t0 l] eqn:Et; [contradiction|]. rewrite <- Et in *. cbn [nth] in He.
  assert (Hl : (1 <= length (tj_ts t))%nat) by (rewrite Et; cbn; lia). assert (E0 : nth 0 (tj_ts t) 0 = t0) by now rewrite Et.
  destruct (Rle_dec e s); [lra|]. destruct (Rlt_dec (last (tj_ts t) 0) s); [lra|]. destruct (Rlt_dec e t0) as [Hbad|_]; [rewrite E0 in He; lra|].
  set (a := if Rle_dec s t0 then 0%nat else argmax_ge (tj_ts t) s). set (b := if Rle_dec (last (tj_ts t) 0) e then (length (tj_ts t) - 1)%nat else argmax_ge (tj_ts t) e).
  assert (A : (a <= length (tj_ts t))%nat /\ forall i, (i < length (tj_ts t))%nat -> (a <= i)%nat <-> s <= nth i (tj_ts t) 0).
  { unfold a. destruct (Rle_dec s t0) as [H|H].
    - split; [lia|]. intros i Hil. split; [|lia]. intros _. destruct i as [|i]; [lra|]. specialize (Hi 0%nat (S i) ltac:(lia) Hil). lra.
    - destruct (argmax_spec (tj_ts t) s Hi Hne Hs) as (H1 & H2). split; [lia|exact H2]. }
  assert (B : (b < length (tj_ts t))%nat /\ forall i, (i < length (tj_ts t))%nat -> (i < b)%nat <-> nth i (tj_ts t) 0 < e /\ (last (tj_ts t) 0 < e -> (S i < length (tj_ts t))%nat)).
  { unfold b. destruct (Rle_dec (last (tj_ts t) 0) e) as [H|H].
    - split; [lia|]. intros i Hil. rewrite last_nth' in *. split.
      + intros Hib. split; [|lia]. specialize (Hi i (length (tj_ts t) - 1)%nat Hib ltac:(lia)). lra.
      + intros (H1 & H2). destruct (Nat.eq_dec i (length (tj_ts t) - 1)) as [Ei|]; [|lia]. exfalso. rewrite <- Ei in *. specialize (H2 H1). lia.
    - destruct (argmax_spec (tj_ts t) e Hi Hne ltac:(lra)) as (H1 & H2). split; [lia|]. intros i Hil. specialize (H2 i Hil). split.
      + intros Hib. split; [|lra]. destruct (Rlt_le_dec (nth i (tj_ts t) 0) e) as [|Hc]; [trivial|]. apply H2 in Hc. lia.
      + intros (H3 & _). destruct (Nat.lt_ge_cases i (argmax_ge (tj_ts t) e)) as [|Hc]; [trivial|]. apply H2 in Hc. lra. }
  destruct A as (A1 & A2), B as (B1 & B2). destruct (do_crop_keeps t a b Ht A1 ltac:(lia) Hm) as (t' & E & K). exists t', a, b. split; [exact E|]. split; [exact K|].
  split; [trivial|]. split; [trivial|]. intros i Hil. specialize (A2 i Hil). specialize (B2 i Hil). tauto.
Qed.
Lemma crop_times_outside t s e : tj_ts t <> [] -> s < e -> last (tj_ts t) 0 < s \/ e < nth 0 (tj_ts t) 0 -> crop_times t s e = (t, Ok tt).
Proof.
  intros Hne Hse H. unfold crop_times. destruct (tj_ts t) as [|t0 l]; [contradiction|]. destruct (Rle_dec e s); [lra|]. cbn [nth] in H.
  destruct (Rlt_dec (last (t0 :: l) 0) s); [reflexivity|]. destruct (Rlt_dec e t0); [reflexivity|]. lra.
Qed.
