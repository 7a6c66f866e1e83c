From Coq Require Import String.
From Verif Require Import Base BaseLemmas UpdatersModel UpdatersSpec UpdatersProofs UpdatersProofs2
  UpdatersProofs3.
Open Scope R_scope.

(** ** sums over rows *)
Lemma rsum_map2_sumn {A B} (f : A -> B -> R) l m n da db :
  length l = n -> length m = n ->
  rsum (map2 f l m) = sumn n (fun s => f (nth s l da) (nth s m db)).
Proof.
  intros Hl Hm. rewrite rsum_nth, map2_length, Hl, Hm, Nat.min_id.
  apply sumn_ext. intros i Hi. apply nth_map2; lia.
Qed.

Lemma map2_combine {A B C} (f : A -> B -> C) l m :
  map2 f l m = map (fun p => f (fst p) (snd p)) (combine l m).
Proof. revert m; induction l as [|x l IH]; intros [|y m]; cbn; auto. now rewrite IH. Qed.

(** ** weighted average *)
Lemma average_rows_ok samples w n :
  simplex n w -> nrows samples = n ->
  average_rows samples w =
    Ok (map (fun j => sumn n (fun i => nth i w 0 * mget samples i j)) (seq 0 (mcols samples))).
Proof.
  intros (Hl & _ & Hs) Hn. unfold average_rows. rewrite Hl, Hn, Nat.eqb_refl. cbn [negb].
  destruct (Req_EM_T (rsum w) 0) as [E|_]; [lra|]. f_equal. apply map_ext. intros j.
  rewrite Hs. unfold Rdiv; rewrite Rinv_1, Rmult_1_r.
  rewrite (rsum_map2_sumn _ _ _ n 0 []); auto.
Qed.

Lemma average_rows_inv samples w m : average_rows samples w = Ok m -> length w = nrows samples.
Proof.
  unfold average_rows. destruct (Nat.eqb_spec (length w) (nrows samples)); [auto|discriminate].
Qed.


Lemma update_inv argsort u d samples costs d' w :
  update_distribution argsort u d samples costs = Ok (d', w) ->
  costs_to_weights argsort costs (u_method u) (u_elit u) = Ok w /\
  average_rows samples w = Ok (d_mean d') /\ d_bounds d' = d_bounds d.
Proof.
  destruct u as [m e|m e dc|a]; cbn [update_distribution u_method u_elit].
  - unfold update_mean. destruct (costs_to_weights _ _ _ _) as [w'|] eqn:E1; cbn; [|discriminate].
    destruct (average_rows samples w') as [mn|] eqn:E2; cbn; [|discriminate].
    intros H; injection H as <- <-. cbn. auto.
  - unfold update_covar_decay. destruct (costs_to_weights _ _ _ _) as [w'|] eqn:E1; cbn; [|discriminate].
    destruct (average_rows samples w') as [mn|] eqn:E2; cbn; [|discriminate].
    intros H; injection H as <- <-. cbn. auto.
  - unfold update_covar_adapt.
    destruct (costs_to_weights _ _ _ _) as [w'|] eqn:E1; cbn [bind]; [|discriminate].
    destruct (average_rows samples w') as [mn|] eqn:E2; cbn [bind]; [|discriminate].
    destruct (negb _); [destruct (orb _ _); discriminate|].
    destruct (if Rlt_dec (ca_lr a) 1 then _ else _) as [c3|]; cbn [bind]; [|discriminate].
    destruct (match ca_max a with Some _ => _ | None => _ end) as [c4|]; cbn [bind]; [|discriminate].
    destruct (match ca_min a with Some _ => _ | None => _ end) as [c5|]; cbn [bind]; [|discriminate].
    intros H; injection H as <- <-. cbn. auto.
Qed.

Section Upd.
Variable argsort : list R -> list nat.
Hypothesis Ha : argsort_ok argsort.

(** the number of samples equals the number of costs in every successful update *)
Lemma weights_length costs m e w : costs_to_weights argsort costs m e = Ok w -> length w = length costs.
Proof.
  intros H. destruct costs as [|c costs].
  - destruct w as [|x w]; [reflexivity|]. exfalso.
    unfold costs_to_weights in H. cbn [mapM bind] in H.
    assert (K : forall r, normalize r = Ok (x :: w) -> length r = S (length w)).
    { intros r. unfold normalize. destruct r; [discriminate|].
      destruct (Req_EM_T _ _); [discriminate|]. intros E; injection E as _ <-. cbn. now rewrite map_length. }
    destruct (String.eqb m "PI-BB"); [discriminate|].
    destruct (String.eqb m "CEM").
    + unfold cem_raw in H. destruct (Req_EM_T _ _); [discriminate|].
      destruct e as [z|]; [|discriminate]. cbn [bind] in H. apply K in H. cbn in H.
      assert (L : forall l, length (fold_left (fun (w0 : list R) i => set_nth w0 i (1 / IZR z)) l []) = 0%nat).
      { induction l; auto. }
      change (zeros 0) with (@nil R) in H. rewrite L in H. discriminate.
    + destruct (String.eqb m "CMA-ES"); [|discriminate].
      unfold cmaes_raw in H. destruct e as [z|]; [|discriminate].
      destruct (cmaes_loop _ _ _ _) as [r|] eqn:E; [|discriminate]. cbn [bind] in H. apply K in H.
      assert (L : forall iis w0 r0, cmaes_loop (argsort []) z iis w0 = Ok r0 -> length r0 = length w0).
      { induction iis as [|ii iis IH]; cbn; intros w0 r0 E0; [now injection E0 as <-|].
        destruct (nth_res _ _); cbn in E0; [|discriminate]. apply IH in E0. now rewrite set_nth_length in E0. }
      apply L in E. cbn in E. lia.
  - now destruct (weights_simplex_if_ok argsort Ha (c :: costs) m e w ltac:(discriminate) H).
Qed.

Lemma weights_simplex_ok costs m e w :
  costs <> [] -> costs_to_weights argsort costs m e = Ok w -> simplex (length costs) w.
Proof. intros Hne H. now apply weights_simplex_if_ok with argsort m e. Qed.

Lemma update_nonempty u d samples costs d' w :
  update_distribution argsort u d samples costs = Ok (d', w) -> costs <> [].
Proof.
  intros H. apply update_inv in H. destruct H as (H1 & H2 & _). intros ->.
  apply weights_length in H1. destruct w; [|discriminate].
  unfold average_rows in H2. destruct (negb _); [discriminate|].
  destruct (Req_EM_T (rsum []) 0) as [|N]; [discriminate|]. now apply N.
Qed.

Lemma update_mean_formula u d samples costs d' w :
  update_distribution argsort u d samples costs = Ok (d', w) ->
  simplex (nrows samples) w /\ length costs = nrows samples /\
  length (d_mean d') = mcols samples /\
  forall j, (j < mcols samples)%nat ->
    nth j (d_mean d') 0 = sumn (nrows samples) (fun i => nth i w 0 * mget samples i j).
Proof.
  intros H. assert (Hne := update_nonempty _ _ _ _ _ _ H). apply update_inv in H.
  destruct H as (H1 & H2 & _).
  assert (Hs := weights_simplex_ok _ _ _ _ Hne H1).
  assert (Hl := average_rows_inv _ _ _ H2). destruct Hs as (Hs1 & Hs2).
  assert (Hcl : length costs = nrows samples) by lia. rewrite Hcl in *.
  assert (Hs : simplex (nrows samples) w) by (split; auto).
  rewrite (average_rows_ok samples w (nrows samples) Hs eq_refl) in H2. injection H2 as E.
  rewrite <- E. split; [exact Hs|]. split; [reflexivity|].
  split; [now rewrite map_length, seq_length|]. intros j Hj. now rewrite nth_map_seq.
Qed.

Lemma convex_bounds n w x lo hi : simplex n w ->
  (forall i, (i < n)%nat -> lo <= x i <= hi) -> lo <= sumn n (fun i => nth i w 0 * x i) <= hi.
Proof.
  intros (Hl & Hpos & Hs) Hx. rewrite rsum_nth, Hl in Hs.
  assert (Hw : forall i, (i < n)%nat -> 0 <= nth i w 0).
  { intros i Hi. apply Hpos, nth_In. lia. }
  split.
  - replace lo with (sumn n (fun i => nth i w 0 * lo)) by (rewrite sumn_scal_r, Hs; ring).
    apply sumn_le. intros i Hi. specialize (Hx i Hi). specialize (Hw i Hi). nra.
  - replace hi with (sumn n (fun i => nth i w 0 * hi)) by (rewrite sumn_scal_r, Hs; ring).
    apply sumn_le. intros i Hi. specialize (Hx i Hi). specialize (Hw i Hi). nra.
Qed.

Lemma update_mean_in_box u d samples costs d' w j lo hi :
  update_distribution argsort u d samples costs = Ok (d', w) ->
  (j < mcols samples)%nat ->
  (forall i, (i < nrows samples)%nat -> lo <= mget samples i j <= hi) ->
  lo <= nth j (d_mean d') 0 <= hi.
Proof.
  intros H Hj Hb. destruct (update_mean_formula _ _ _ _ _ _ H) as (Hs & _ & _ & Hf).
  rewrite Hf by exact Hj. now apply convex_bounds.
Qed.

(** ** histories *)
Lemma update_history_bounds u d hist d' :
  update_history argsort u d hist = Ok d' -> d_bounds d' = d_bounds d.
Proof.
  revert d; induction hist as [|[s c] hist IH]; cbn; intros d H; [now injection H as <-|].
  destruct (update_distribution argsort u d s c) as [[d1 w]|] eqn:E; cbn in H; [|discriminate].
  apply IH in H. rewrite H. now apply update_inv in E.
Qed.

Lemma update_mean_covar m e d samples costs d' w :
  update_distribution argsort (UMean m e) d samples costs = Ok (d', w) -> d_covar d' = d_covar d.
Proof.
  cbn. unfold update_mean. destruct (costs_to_weights _ _ _ _) as [w'|]; cbn; [|discriminate].
  destruct (average_rows _ _); cbn; [|discriminate]. intros H; injection H as <- <-; reflexivity.
Qed.

Lemma mean_history_covar m e d hist d' :
  update_history argsort (UMean m e) d hist = Ok d' -> d_covar d' = d_covar d.
Proof.
  revert d; induction hist as [|[s c] hist IH]; intros d H; [now injection H as <-|].
  cbn [update_history] in H.
  destruct (update_distribution argsort (UMean m e) d s c) as [[d1 w]|] eqn:E; cbn in H; [|discriminate].
  apply IH in H. rewrite H. now apply update_mean_covar in E.
Qed.

Lemma mscal_mscal a b m : mscal a (mscal b m) = mscal (a * b) m.
Proof.
  unfold mscal; cbn. f_equal. rewrite map_map. apply map_ext. intros r. rewrite map_map.
  apply map_ext. intros x. ring.
Qed.
Lemma mscal_1 m : mscal 1 m = m.
Proof.
  destruct m as [c r]. unfold mscal; cbn. f_equal. rewrite <- (map_id r) at 2. apply map_ext.
  intros l. rewrite <- (map_id l) at 2. apply map_ext. intros; ring.
Qed.
Lemma mget_mscal c m i j : mget (mscal c m) i j = c * mget m i j.
Proof.
  unfold mget, mscal; cbn. destruct (Nat.lt_ge_cases i (length (mrows m))) as [H|H].
  - rewrite (nth_map_lt _ _ _ []) by exact H.
    destruct (Nat.lt_ge_cases j (length (nth i (mrows m) []))) as [H'|H'].
    + now rewrite (nth_map_lt _ _ _ 0).
    + rewrite !nth_overflow by (rewrite ?map_length; exact H'). ring.
  - rewrite (nth_overflow (map _ _)) by now rewrite map_length.
    rewrite (nth_overflow (mrows m)) by exact H. destruct j; cbn; ring.
Qed.

Lemma decay_history m e dc d hist d' :
  update_history argsort (UDecay m e dc) d hist = Ok d' ->
  d_covar d' = mscal (dc ^ (2 * length hist)) (d_covar d).
Proof.
  revert d; induction hist as [|[s c] hist IH]; intros d H.
  - injection H as <-. cbn. now rewrite mscal_1.
  - cbn [update_history] in H.
    destruct (update_distribution argsort (UDecay m e dc) d s c) as [[d1 w]|] eqn:E; cbn [bind] in H;
      [|discriminate].
    apply IH in H. rewrite H. cbn in E. unfold update_covar_decay in E.
    destruct (costs_to_weights _ _ _ _) as [w'|]; cbn in E; [|discriminate].
    destruct (average_rows _ _); cbn in E; [|discriminate]. injection E as <- <-. cbn [fst d_covar].
    rewrite mscal_mscal. f_equal. cbn [length].
    replace (2 * S (length hist))%nat with (2 * length hist + 2)%nat by lia. rewrite pow_add. ring.
Qed.

(** ** covariance adaptation *)
Lemma scatter_square mean samples w : square (mcols samples) (scatter mean samples w).
Proof. unfold scatter. split; [apply mtab_wf|]. split; [apply mtab_nrows|reflexivity]. Qed.

Lemma scatter_entry mean samples w i j :
  mat_wf samples -> length mean = mcols samples -> length w = nrows samples ->
  (i < mcols samples)%nat -> (j < mcols samples)%nat ->
  mget (scatter mean samples w) i j =
  sumn (nrows samples) (fun s =>
    nth s w 0 * ((mget samples s i - nth i mean 0) * (mget samples s j - nth j mean 0))).
Proof.
  intros Hwf Hm Hw Hi Hj. unfold scatter. rewrite mget_mtab by assumption.
  rewrite (rsum_map2_sumn _ _ _ (nrows samples) 0 []); [|exact Hw|now rewrite map_length].
  apply sumn_ext. intros s Hs. rewrite (nth_map_lt _ _ _ []) by exact Hs.
  assert (Hr := mat_wf_row _ _ Hwf Hs).
  rewrite !(nth_map2 Rminus _ _ _ 0 0 0) by lia. unfold mget. ring.
Qed.

Lemma keep_diag_square n c : square n c -> square n (keep_diag c).
Proof.
  intros (_ & _ & Hc). unfold keep_diag. rewrite Hc. split; [apply mtab_wf|].
  split; [apply mtab_nrows|reflexivity].
Qed.
Lemma keep_diag_entry n c i j : square n c -> (i < n)%nat -> (j < n)%nat ->
  mget (keep_diag c) i j = if Nat.eqb i j then mget c i j else 0.
Proof.
  intros (_ & _ & Hc) Hi Hj. unfold keep_diag. rewrite Hc, mget_mtab by assumption.
  destruct (Nat.eqb_spec i j) as [->|]; reflexivity.
Qed.
Lemma lowpass_square n lr c c' : square n c' -> square n (lowpass lr c c').
Proof.
  intros (_ & _ & Hc). unfold lowpass. rewrite Hc. split; [apply mtab_wf|].
  split; [apply mtab_nrows|reflexivity].
Qed.
Lemma lowpass_entry n lr c c' i j : square n c' -> (i < n)%nat -> (j < n)%nat ->
  mget (lowpass lr c c') i j = (1 - lr) * mget c i j + lr * mget c' i j.
Proof. intros (_ & _ & Hc) Hi Hj. unfold lowpass. now rewrite Hc, mget_mtab. Qed.

Lemma mset_square n c i j v : square n c -> (i < n)%nat -> square n (mset c i j v).
Proof.
  intros (H1 & H2 & H3) Hi. split; [apply mset_wf; [exact H1|lia]|].
  split; [now rewrite mset_nrows|exact H3].
Qed.

Lemma clamp_max_spec n lv iis c c' :
  NoDup iis -> (forall i, In i iis -> (i < n)%nat) -> square n c ->
  clamp_max_loop lv iis c = Ok c' ->
  square n c' /\
  (forall i j, (i < n)%nat -> (j < n)%nat -> (i <> j \/ ~ In i iis) -> mget c' i j = mget c i j) /\
  (forall i, In i iis -> exists l, level_at lv i = Ok l /\ mget c' i i = Rmin (mget c i i) l).
Proof.
  revert c; induction iis as [|ii iis IH]; cbn; intros c Hnd Hlt Hsq H.
  - injection H as <-. repeat split; try apply Hsq; auto. intros i [].
  - destruct (level_at lv ii) as [l|] eqn:El; cbn in H; [|discriminate].
    inversion Hnd as [|? ? Hni Hnd']; subst.
    assert (Hii : (ii < n)%nat) by (apply Hlt; now left).
    set (c1 := if Rlt_dec l (mget c ii ii) then mset c ii ii l else c) in *.
    assert (Hsq1 : square n c1) by (unfold c1; destruct (Rlt_dec _ _); auto using mset_square).
    assert (Hget : forall i j, mget c1 i j =
              if andb (Nat.eqb i ii) (Nat.eqb j ii) then Rmin (mget c ii ii) l else mget c i j).
    { intros i j. unfold c1. destruct Hsq as (W1 & W2 & W3). destruct (Rlt_dec l (mget c ii ii)) as [Hl|Hl].
      - rewrite mget_mset by (auto; lia). destruct (andb _ _); [|reflexivity].
        rewrite Rmin_right; lra.
      - destruct (andb _ _) eqn:Eb; [|reflexivity]. apply andb_true_iff in Eb.
        destruct Eb as [E1 E2]. apply Nat.eqb_eq in E1, E2. subst. rewrite Rmin_left; lra. }
    destruct (IH c1 Hnd') as (I1 & I2 & I3); auto.
    split; [exact I1|]. split.
    + intros i j Hi Hj Hor. rewrite I2; auto; [|tauto]. rewrite Hget.
      destruct (Nat.eqb_spec i ii), (Nat.eqb_spec j ii); cbn; auto. subst. tauto.
    + intros i [->|Hi].
      * exists l. split; [exact El|]. rewrite I2 by auto. rewrite Hget, Nat.eqb_refl. reflexivity.
      * destruct (I3 i Hi) as (l' & E1 & E2). exists l'. split; [exact E1|]. rewrite E2, Hget.
        destruct (Nat.eqb_spec i ii) as [->|]; [contradiction|reflexivity].
Qed.

Lemma clamp_min_spec n lv iis c c' :
  NoDup iis -> (forall i, In i iis -> (i < n)%nat) -> square n c ->
  clamp_min_loop lv iis c = Ok c' ->
  square n c' /\
  (forall i j, (i < n)%nat -> (j < n)%nat -> (i <> j \/ ~ In i iis) -> mget c' i j = mget c i j) /\
  (forall i, In i iis -> exists l, level_at lv i = Ok l /\ mget c' i i = Rmax (mget c i i) l).
Proof.
  revert c; induction iis as [|ii iis IH]; cbn; intros c Hnd Hlt Hsq H.
  - injection H as <-. repeat split; try apply Hsq; auto. intros i [].
  - destruct (level_at lv ii) as [l|] eqn:El; cbn in H; [|discriminate].
    inversion Hnd as [|? ? Hni Hnd']; subst.
    assert (Hii : (ii < n)%nat) by (apply Hlt; now left).
    set (c1 := if Rlt_dec (mget c ii ii) l then mset c ii ii l else c) in *.
    assert (Hsq1 : square n c1) by (unfold c1; destruct (Rlt_dec _ _); auto using mset_square).
    assert (Hget : forall i j, mget c1 i j =
              if andb (Nat.eqb i ii) (Nat.eqb j ii) then Rmax (mget c ii ii) l else mget c i j).
    { intros i j. unfold c1. destruct Hsq as (W1 & W2 & W3). destruct (Rlt_dec (mget c ii ii) l) as [Hl|Hl].
      - rewrite mget_mset by (auto; lia). destruct (andb _ _); [|reflexivity].
        rewrite Rmax_right; lra.
      - destruct (andb _ _) eqn:Eb; [|reflexivity]. apply andb_true_iff in Eb.
        destruct Eb as [E1 E2]. apply Nat.eqb_eq in E1, E2. subst. rewrite Rmax_left; lra. }
    destruct (IH c1 Hnd') as (I1 & I2 & I3); auto.
    split; [exact I1|]. split.
    + intros i j Hi Hj Hor. rewrite I2; auto; [|tauto]. rewrite Hget.
      destruct (Nat.eqb_spec i ii), (Nat.eqb_spec j ii); cbn; auto. subst. tauto.
    + intros i [->|Hi].
      * exists l. split; [exact El|]. rewrite I2 by auto. rewrite Hget, Nat.eqb_refl. reflexivity.
      * destruct (I3 i Hi) as (l' & E1 & E2). exists l'. split; [exact E1|]. rewrite E2, Hget.
        destruct (Nat.eqb_spec i ii) as [->|]; [contradiction|reflexivity].
Qed.



Lemma level_at_value lv i l : level_at lv i = Ok l <-> exists r, level_value lv i = Some r /\ l = r ^ 2.
Proof.
  destruct lv as [r|a]; cbn [level_at level_value].
  - split; [intros H; injection H as <-; eauto|intros (r' & E & ->); now injection E as ->].
  - unfold nth_res. destruct (nth_error a i) as [r|]; cbn [bind]; split; intros H.
    + injection H as <-; eauto.
    + destruct H as (r' & E & ->); now injection E as ->.
    + discriminate.
    + destruct H as (r' & E & _); discriminate.
Qed.


Lemma adapt_full u d samples costs d' w :
  let n := mcols samples in
  mat_wf samples -> (ca_lr u < 1 -> square n (d_covar d)) -> 0 <= ca_lr u <= 1 ->
  update_covar_adapt argsort u d samples costs = Ok (d', w) ->
  length (d_mean d) = n /\ square n (d_covar d') /\
  (forall i j, (i < n)%nat -> (j < n)%nat -> i <> j ->
     mget (d_covar d') i j = adapted u d samples w i j) /\
  (forall i, (i < n)%nat -> clamped u i (adapted u d samples w i i) (mget (d_covar d') i i)).
Proof.
  intros n Hwf Hsq Hlr H.
  assert (Hf := update_mean_formula (UAdapt u) d samples costs d' w H).
  destruct Hf as ((Hwl & _) & _).
  unfold update_covar_adapt in H.
  destruct (costs_to_weights _ _ _ _) as [w'|] eqn:E1; cbn [bind] in H; [|discriminate].
  destruct (average_rows samples w') as [mn|] eqn:E2; cbn [bind] in H; [|discriminate].
  fold n in H. destruct (Nat.eqb_spec (length (d_mean d)) n) as [Hm|Hm]; cbn [negb] in H;
    [|destruct (orb _ _); discriminate].
  set (c1 := scatter (d_mean d) samples w') in *.
  set (c2 := if ca_diag_only u then keep_diag c1 else c1) in *.
  destruct (if Rlt_dec (ca_lr u) 1 then _ else _) as [c3|] eqn:E3; cbn [bind] in H; [|discriminate].
  destruct (match ca_max u with Some _ => _ | None => _ end) as [c4|] eqn:E4; cbn [bind] in H; [|discriminate].
  destruct (match ca_min u with Some _ => _ | None => _ end) as [c5|] eqn:E5; cbn [bind] in H; [|discriminate].
  injection H as <- <-. cbn [d_covar].
  assert (S1 : square n c1) by apply scatter_square.
  assert (S2 : square n c2) by (unfold c2; destruct (ca_diag_only u); auto using keep_diag_square).
  assert (G2 : forall i j, (i < n)%nat -> (j < n)%nat -> mget c2 i j =
     if andb (ca_diag_only u) (negb (Nat.eqb i j)) then 0 else
      sumn (nrows samples) (fun s => nth s w' 0 *
      ((mget samples s i - nth i (d_mean d) 0) * (mget samples s j - nth j (d_mean d) 0)))).
  { intros i j Hi Hj. rewrite <- scatter_entry by assumption. fold c1. unfold c2.
    destruct (ca_diag_only u); cbn [andb]; [|reflexivity]. rewrite (keep_diag_entry n) by assumption.
    destruct (Nat.eqb i j); reflexivity. }
  assert (S3 : square n c3 /\ forall i j, (i < n)%nat -> (j < n)%nat ->
     mget c3 i j = adapted u d samples w' i j).
  { destruct (Rlt_dec (ca_lr u) 1) as [Hl|Hl].
    - destruct (andb _ _); [|discriminate]. injection E3 as <-.
      split; [now apply lowpass_square|]. intros i j Hi Hj. rewrite (lowpass_entry n) by assumption.
      unfold adapted. rewrite G2 by assumption. reflexivity.
    - injection E3 as <-. split; [exact S2|]. intros i j Hi Hj. rewrite G2 by assumption.
      unfold adapted. assert (E : ca_lr u = 1) by lra. rewrite E. ring. }
  destruct S3 as [S3 G3].
  assert (S4 : square n c4 /\ (forall i j, (i < n)%nat -> (j < n)%nat -> i <> j -> mget c4 i j = mget c3 i j) /\
     forall i, (i < n)%nat -> match ca_max u with
       | None => mget c4 i i = mget c3 i i
       | Some lv => exists m, level_value lv i = Some m /\ mget c4 i i = Rmin (mget c3 i i) (m ^ 2) end).
  { destruct (ca_max u) as [lv|].
    - destruct (clamp_max_spec n lv (seq 0 n) c3 c4) as (I1 & I2 & I3); auto using seq_NoDup.
      { intros i Hi; apply in_seq in Hi; lia. }
      split; [exact I1|]. split; [intros; apply I2; auto|]. intros i Hi.
      destruct (I3 i) as (l & El & Eg); [apply in_seq; lia|]. apply level_at_value in El.
      destruct El as (r & Er & ->). eauto.
    - injection E4 as <-. auto. }
  destruct S4 as (S4 & N4 & G4).
  assert (S5 : square n c5 /\ (forall i j, (i < n)%nat -> (j < n)%nat -> i <> j -> mget c5 i j = mget c4 i j) /\
     forall i, (i < n)%nat -> match ca_min u with
       | None => mget c5 i i = mget c4 i i
       | Some lv => exists m, level_value lv i = Some m /\ mget c5 i i = Rmax (mget c4 i i) (m ^ 2) end).
  { destruct (ca_min u) as [lv|].
    - destruct (clamp_min_spec n lv (seq 0 n) c4 c5) as (I1 & I2 & I3); auto using seq_NoDup.
      { intros i Hi; apply in_seq in Hi; lia. }
      split; [exact I1|]. split; [intros; apply I2; auto|]. intros i Hi.
      destruct (I3 i) as (l & El & Eg); [apply in_seq; lia|]. apply level_at_value in El.
      destruct El as (r & Er & ->). eauto.
    - injection E5 as <-. auto. }
  destruct S5 as (S5 & N5 & G5).
  split; [exact Hm|]. split; [exact S5|]. split.
  - intros i j Hi Hj Hne. rewrite N5, N4, G3; auto.
  - intros i Hi. exists (mget c4 i i). rewrite <- G3 by assumption. split; [apply G4|apply G5]; assumption.
Qed.

(** *** positive semi-definiteness *)
Lemma sumn_delta n a i : (i < n)%nat -> sumn n (fun j => if Nat.eqb i j then a j else 0) = a i.
Proof.
  intros H. induction n as [|n IH]; [lia|]. cbn [sumn].
  destruct (Nat.eqb_spec i n) as [->|Hne].
  - rewrite sumn_zero; [ring|]. intros j Hj. destruct (Nat.eqb_spec n j); [lia|reflexivity].
  - rewrite IH by lia. ring.
Qed.

Lemma quad_ext n C C' v : (forall i j, (i < n)%nat -> (j < n)%nat -> C i j = C' i j) ->
  quad n C v = quad n C' v.
Proof.
  intros H. unfold quad. apply sumn_ext; intros i Hi. apply sumn_ext; intros j Hj. now rewrite H.
Qed.

Lemma quad_lin n a b C C' v :
  quad n (fun i j => a * C i j + b * C' i j) v = a * quad n C v + b * quad n C' v.
Proof.
  unfold quad. rewrite <- !sumn_scal, <- sumn_plus. apply sumn_ext; intros i Hi.
  rewrite <- !sumn_scal, <- sumn_plus. apply sumn_ext; intros j Hj. ring.
Qed.

Lemma quad_diag n a v :
  quad n (fun i j => if Nat.eqb i j then a i else 0) v = sumn n (fun i => a i * (v i) ^ 2).
Proof.
  unfold quad. apply sumn_ext; intros i Hi.
  rewrite (sumn_ext n _ (fun j => if Nat.eqb i j then v i * a i * v j else 0)).
  - rewrite (sumn_delta n (fun j => v i * a i * v j) i Hi). ring.
  - intros j Hj. destruct (Nat.eqb_spec i j); subst; ring.
Qed.

Lemma quad_scatter n N (w : nat -> R) (e : nat -> nat -> R) v :
  quad n (fun i j => sumn N (fun s => w s * (e s i * e s j))) v =
  sumn N (fun s => w s * (sumn n (fun i => v i * e s i)) ^ 2).
Proof.
  unfold quad.
  rewrite (sumn_ext n _ (fun i => sumn N (fun s => sumn n (fun j => v i * (w s * (e s i * e s j)) * v j)))).
  2:{ intros i Hi. rewrite <- sumn_swap. apply sumn_ext; intros j Hj.
      rewrite <- sumn_scal, <- sumn_scal_r. apply sumn_ext; intros; ring. }
  rewrite sumn_swap. apply sumn_ext; intros s Hs.
  rewrite (sumn_ext n _ (fun i => (w s * (v i * e s i)) * sumn n (fun j => v j * e s j))).
  - rewrite sumn_scal_r, sumn_scal. ring.
  - intros i Hi. rewrite <- sumn_scal. apply sumn_ext; intros; ring.
Qed.

Lemma scatter_psd n N w e v : (forall s, (s < N)%nat -> 0 <= w s) ->
  0 <= quad n (fun i j => sumn N (fun s => w s * (e s i * e s j))) v.
Proof.
  intros Hw. rewrite quad_scatter. apply sumn_nonneg. intros s Hs. specialize (Hw s Hs).
  apply Rmult_le_pos; [exact Hw|]. apply pow2_ge_0.
Qed.

Lemma adapted_psd u d samples w n :
  simplex (nrows samples) w -> 0 <= ca_lr u <= 1 ->
  (ca_lr u < 1 -> forall v, 0 <= quad n (mget (d_covar d)) v) ->
  forall v, 0 <= quad n (adapted u d samples w) v.
Proof.
  intros (Hl & Hpos & _) Hlr Hc v.
  assert (Hw : forall s, (s < nrows samples)%nat -> 0 <= nth s w 0).
  { intros s Hs. apply Hpos, nth_In. lia. }
  unfold adapted.
  rewrite (quad_lin n (1 - ca_lr u) (ca_lr u) (mget (d_covar d))
     (fun i j => if andb (ca_diag_only u) (negb (Nat.eqb i j)) then 0 else
      sumn (nrows samples) (fun s => nth s w 0 *
      ((mget samples s i - nth i (d_mean d) 0) * (mget samples s j - nth j (d_mean d) 0))))).
  assert (0 <= (1 - ca_lr u) * quad n (mget (d_covar d)) v).
  { destruct (Req_dec (ca_lr u) 1) as [->|]; [lra|]. apply Rmult_le_pos; [lra|]. apply Hc; lra. }
  match goal with |- 0 <= _ + _ * ?q => assert (0 <= q) as Hq end.
  { destruct (ca_diag_only u); cbn [andb].
    - rewrite (quad_ext n _ (fun i j => if Nat.eqb i j then
        sumn (nrows samples) (fun s => nth s w 0 *
        ((mget samples s i - nth i (d_mean d) 0) * (mget samples s i - nth i (d_mean d) 0))) else 0)).
      + rewrite (quad_diag n (fun i => sumn (nrows samples) (fun s => nth s w 0 *
          ((mget samples s i - nth i (d_mean d) 0) * (mget samples s i - nth i (d_mean d) 0))))).
        apply sumn_nonneg; intros i Hi. apply Rmult_le_pos; [|apply pow2_ge_0].
        apply sumn_nonneg; intros s Hs. apply Rmult_le_pos; [now apply Hw|].
        set (z := mget samples s i - nth i (d_mean d) 0). nra.
      + intros i j Hi Hj. destruct (Nat.eqb_spec i j); subst; reflexivity.
    - apply (scatter_psd n (nrows samples) (fun s => nth s w 0)
        (fun s i => mget samples s i - nth i (d_mean d) 0)). exact Hw. }
  nra.
Qed.

Lemma adapted_sym u d samples w n i j :
  (ca_lr u < 1 -> symmetric n (d_covar d)) -> ca_lr u <= 1 -> (i < n)%nat -> (j < n)%nat ->
  adapted u d samples w i j = adapted u d samples w j i.
Proof.
  intros Hs Hlr Hi Hj. unfold adapted. rewrite (Nat.eqb_sym j i).
  assert (E : (1 - ca_lr u) * mget (d_covar d) i j = (1 - ca_lr u) * mget (d_covar d) j i).
  { destruct (Req_dec (ca_lr u) 1) as [->|]; [ring|]. rewrite (Hs ltac:(lra) i j); auto. }
  rewrite E. f_equal. f_equal. destruct (andb _ _); [reflexivity|].
  apply sumn_ext; intros; ring.
Qed.

Lemma raise_diag_psd n C C' :
  (forall i j, (i < n)%nat -> (j < n)%nat -> i <> j -> C' i j = C i j) ->
  (forall i, (i < n)%nat -> C i i <= C' i i) ->
  (forall v, 0 <= quad n C v) -> forall v, 0 <= quad n C' v.
Proof.
  intros Hoff Hd Hc v.
  rewrite (quad_ext n C' (fun i j => 1 * C i j + 1 * (if Nat.eqb i j then C' i i - C i i else 0))).
  - rewrite quad_lin, (quad_diag n (fun i => C' i i - C i i)). specialize (Hc v).
    assert (0 <= sumn n (fun i => (C' i i - C i i) * v i ^ 2)); [|lra].
    apply sumn_nonneg; intros i Hi. apply Rmult_le_pos; [specialize (Hd i Hi); lra|apply pow2_ge_0].
  - intros i j Hi Hj. destruct (Nat.eqb_spec i j) as [->|Hne]; [ring|]. rewrite Hoff by auto. ring.
Qed.

Lemma diag_psd n C : (forall i j, (i < n)%nat -> (j < n)%nat -> i <> j -> C i j = 0) ->
  (forall i, (i < n)%nat -> 0 <= C i i) -> forall v, 0 <= quad n C v.
Proof.
  intros Hoff Hd v. rewrite (quad_ext n C (fun i j => if Nat.eqb i j then C i i else 0)).
  - rewrite (quad_diag n (fun i => C i i)). apply sumn_nonneg; intros i Hi.
    apply Rmult_le_pos; [auto|apply pow2_ge_0].
  - intros i j Hi Hj. destruct (Nat.eqb_spec i j); [now subst|auto].
Qed.

Lemma psd_diag_nonneg n C i : (i < n)%nat -> (forall v, 0 <= quad n C v) -> 0 <= C i i.
Proof.
  intros Hi H. specialize (H (fun k => if Nat.eqb i k then 1 else 0)). unfold quad in H.
  rewrite (sumn_ext n _ (fun k => if Nat.eqb i k then C k i else 0)) in H.
  - now rewrite (sumn_delta n (fun k => C k i)) in H.
  - intros k Hk. destruct (Nat.eqb_spec i k) as [->|].
    + rewrite (sumn_ext n _ (fun j => if Nat.eqb k j then C k j else 0)).
      * now rewrite (sumn_delta n (fun j => C k j)).
      * intros j Hj. destruct (Nat.eqb k j); ring.
    + apply sumn_zero; intros; ring.
Qed.

(** no upper bound on the diagonal, or everything diagonal *)
Lemma adapt_psd u d samples costs d' w :
  let n := mcols samples in
  mat_wf samples -> 0 <= ca_lr u <= 1 ->
  (ca_lr u < 1 -> square n (d_covar d) /\ psd n (d_covar d)) ->
  (ca_max u = None \/
   (ca_diag_only u = true /\
    (ca_lr u < 1 -> forall i j, (i < n)%nat -> (j < n)%nat -> i <> j -> mget (d_covar d) i j = 0))) ->
  update_covar_adapt argsort u d samples costs = Ok (d', w) ->
  square n (d_covar d') /\ psd n (d_covar d').
Proof.
  intros n Hwf Hlr Hcov Hcase H.
  assert (Hsx : simplex (nrows samples) w)
    by now destruct (update_mean_formula (UAdapt u) d samples costs d' w H) as (Hs & _).
  destruct (adapt_full u d samples costs d' w) as (Hm & Hsq & Hoff & Hd); auto.
  { intros Hl. now apply Hcov. }
  fold n in Hm, Hsq, Hoff, Hd. split; [exact Hsq|].
  assert (Hap : forall v, 0 <= quad n (adapted u d samples w) v).
  { apply adapted_psd; auto. intros Hl. apply (proj2 (Hcov Hl)). }
  split.
  - intros i j Hi Hj. destruct (Nat.eq_dec i j) as [->|Hne]; [reflexivity|].
    rewrite !Hoff by auto. apply adapted_sym with n; auto; [|lra]. intros Hl. apply (proj2 (Hcov Hl)).
  - destruct Hcase as [Hmax|[Hdo Hdiag]].
    + apply raise_diag_psd with (C := adapted u d samples w); auto.
      intros i Hi. destruct (Hd i Hi) as (x1 & H1 & H2). rewrite Hmax in H1. subst x1.
      destruct (ca_min u) as [lv|]; [|rewrite H2; lra].
      destruct H2 as (m & _ & ->). apply Rmax_l.
    + apply diag_psd.
      * intros i j Hi Hj Hne. rewrite Hoff by auto. unfold adapted. rewrite Hdo.
        destruct (Nat.eqb_spec i j); [contradiction|]. cbn [andb negb].
        destruct (Req_dec (ca_lr u) 1) as [->|]; [ring|]. rewrite Hdiag by (auto; lra). ring.
      * intros i Hi. assert (0 <= adapted u d samples w i i) by now apply psd_diag_nonneg with n.
        destruct (Hd i Hi) as (x1 & H1 & H2).
        assert (0 <= x1).
        { destruct (ca_max u) as [lv|]; [|subst; auto]. destruct H1 as (m & _ & ->).
          apply Rmin_glb; [auto|apply pow2_ge_0]. }
        destruct (ca_min u) as [lv|]; [|subst; auto]. destruct H2 as (m & _ & ->).
        eapply Rle_trans; [|apply Rmax_l]. auto.
Qed.

(** *** diagonal bounds *)
Lemma adapt_diag_bounds u d samples costs d' w i :
  let n := mcols samples in
  mat_wf samples -> 0 <= ca_lr u <= 1 -> (ca_lr u < 1 -> square n (d_covar d)) ->
  update_covar_adapt argsort u d samples costs = Ok (d', w) -> (i < n)%nat ->
  (forall lv, ca_min u = Some lv ->
     exists m, level_value lv i = Some m /\ m ^ 2 <= mget (d_covar d') i i) /\
  (forall lv, ca_max u = Some lv ->
     exists m, level_value lv i = Some m /\
       ((forall lv' m', ca_min u = Some lv' -> level_value lv' i = Some m' -> m' ^ 2 <= m ^ 2) ->
        mget (d_covar d') i i <= m ^ 2)).
Proof.
  intros n Hwf Hlr Hcov H Hi.
  destruct (adapt_full u d samples costs d' w) as (_ & _ & _ & Hd); auto.
  destruct (Hd i Hi) as (x1 & H1 & H2). split.
  - intros lv E. rewrite E in H2. destruct H2 as (m & Em & ->). exists m. split; [exact Em|apply Rmax_r].
  - intros lv E. rewrite E in H1. destruct H1 as (m & Em & ->). exists m. split; [exact Em|].
    intros Hmin. destruct (ca_min u) as [lv'|].
    + destruct H2 as (m' & Em' & ->). specialize (Hmin lv' m' eq_refl Em').
      apply Rmax_lub; [apply Rmin_r|exact Hmin].
    + rewrite H2. apply Rmin_r.
Qed.
End Upd.
