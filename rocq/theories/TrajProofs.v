(** Proofs about trajectories: shapes and histories. *)
From Coq Require Import String.
From Verif Require Import Base BaseLemmas TrajModel TrajSpec.
Open Scope R_scope.

Lemma samples_col l : samples (length l) 1 (Mat 1 (map (fun x => [x]) l)).
Proof. split; [reflexivity|]. cbn. rewrite map_length. split; [reflexivity|]. intros r H. apply in_map_iff in H. now destruct H as (x & <- & _). Qed.
Lemma array_samples m : array (V2 m) -> samples (length (mrows m)) (mcols m) m.
Proof. intros (n & d & E1 & E2 & H). split; [trivial|]. split; [trivial|]. intros r Hr. rewrite E1. auto. Qed.
Lemma column_shape n a m : array a -> fst (shape a) = n -> column n a = Ok m -> samples n (snd (shape a)) m.
Proof.
  intros Ha Hs E. destruct a as [l|m']; cbn in *.
  - subst n. rewrite Nat.eqb_refl in E. injection E as <-. apply samples_col.
  - injection E as <-. subst n. now apply array_samples.
Qed.
Lemma column_ok n a : fst (shape a) = n -> exists m, column n a = Ok m /\ nrows m = n /\ mcols m = snd (shape a).
Proof.
  intros H. destruct a as [l|m]; cbn in *.
  - subst n. rewrite Nat.eqb_refl. eexists. split; [reflexivity|]. unfold nrows. cbn. now rewrite map_length.
  - eexists. split; [reflexivity|]. now split.
Qed.
Lemma rows_of_shape a : rows_of a = fst (shape a).
Proof. now destruct a. Qed.
Lemma same_shape_iff a b : same_shape a b = true <-> nrows a = nrows b /\ mcols a = mcols b.
Proof. unfold same_shape. rewrite andb_true_iff, !Nat.eqb_eq. tauto. Qed.

Lemma convolve_len a v : length (convolve a v) = (length a + length v - 1)%nat.
Proof. unfold convolve. now rewrite map_length, seq_length. Qed.
Lemma In_set_nth {A} (l : list A) i v x : In x (set_nth l i v) -> x = v \/ In x l.
Proof. revert i. induction l as [|a l IH]; intros [|i]; cbn; try tauto; intros [H|H]; auto. destruct (IH i H); auto. Qed.
Lemma In_firstn {A} n (l : list A) x : In x (firstn n l) -> In x l.
Proof. intros H. rewrite <- (firstn_skipn n l). apply in_or_app. now left. Qed.
Lemma In_skipn {A} n (l : list A) x : In x (skipn n l) -> In x l.
Proof. intros H. rewrite <- (firstn_skipn n l). apply in_or_app. now right. Qed.

Lemma ok_inj {A} (a b : A) : Ok a = Ok b -> a = b.
Proof. congruence. Qed.
Lemma diffnc_samples n d m dt m' : samples n d m -> diffnc m dt = Ok m' -> samples n d m'.
Proof.
  intros (Hc & Hn & _) E. unfold diffnc in E. unfold nrows in E. rewrite Hn, Hc in E.
  destruct (Nat.eqb n 0) eqn:E0; [discriminate|]. destruct (Nat.ltb n 2) eqn:E1; [discriminate|]. apply Nat.ltb_ge in E1.
  destruct dt as [dt|]; [|discriminate]. destruct (Req_EM_T dt 0); [discriminate|]. apply ok_inj in E. subst m'.
  set (cols := map _ (seq 0 d)). assert (Lc : length cols = d) by (unfold cols; now rewrite map_length, seq_length).
  set (xs2 := map _ (seq 0 (n + 2))). assert (L2 : length xs2 = (n + 2)%nat) by (unfold xs2; now rewrite map_length, seq_length).
  assert (Hx : forall r, In r (firstn n (skipn 1 xs2)) -> length r = d).
  { intros r Hr. apply In_firstn, In_skipn in Hr. unfold xs2 in Hr. apply in_map_iff in Hr. destruct Hr as (k & <- & _). now rewrite map_length. }
  set (xs := firstn n (skipn 1 xs2)) in *. assert (Lx : length xs = n) by (unfold xs; rewrite firstn_length, skipn_length, L2; lia).
  split; [reflexivity|]. split; [cbn [mrows]; now rewrite !set_nth_length|]. cbn [mrows]. intros r Hr.
  apply In_set_nth in Hr. destruct Hr as [-> | Hr].
  - assert (H : In (nth (n - 2) (set_nth xs 0 (nth 1 xs [])) []) (set_nth xs 0 (nth 1 xs []))) by (apply nth_In; rewrite set_nth_length; lia).
    apply In_set_nth in H. destruct H as [-> | H]; [|now apply Hx]. apply Hx, nth_In. lia.
  - apply In_set_nth in Hr. destruct Hr as [-> | Hr]; [|now apply Hx]. apply Hx, nth_In. lia.
Qed.

Lemma derivative_samples n d ys m dt g m' : samples n d ys -> samples n d m -> (forall a, g = Some a -> array a) ->
  derivative n ys m dt g = Ok m' -> samples n d m'.
Proof.
  intros Hy Hm Ha E. destruct g as [a|]; cbn in E.
  - destruct (column n a) as [c|e] eqn:Ec; [|discriminate]. cbn [bind] in E. destruct (same_shape ys c) eqn:Es; [|discriminate]. injection E as <-.
    apply same_shape_iff in Es. destruct Hy as (Hc & Hn & _). unfold nrows in Es. destruct a as [l|c']; cbn in Ec.
    + destruct (Nat.eqb_spec (length l) n); [|discriminate]. injection Ec as <-. cbn in Es. destruct Es as [_ Es].
      rewrite <- Hc, Es. replace n with (length l). apply samples_col.
    + injection Ec as <-. destruct Es as [E1 E2]. rewrite <- Hc, <- Hn, E1, E2. apply array_samples. now apply Ha.
  - eapply diffnc_samples; eassumption.
Qed.

Lemma new_traj_consistent ts ys yds ydds misc t : array ys -> (forall a, yds = Some a -> array a) -> (forall a, ydds = Some a -> array a) ->
  (forall a, misc = Some a -> array a) -> new_traj ts ys yds ydds misc = Ok t ->
  consistent t /\ tj_ts t = ts /\ tj_dim t = snd (shape ys) /\ column (length ts) ys = Ok (tj_ys t) /\ tj_misc t = misc /\ tj_dt t = dt_mean ts.
Proof.
  intros Hy Hyd Hydd Hm E. unfold new_traj in E. rewrite rows_of_shape in E. destruct (Nat.eqb_spec (length ts) (fst (shape ys))) as [En|]; [|discriminate].
  destruct (column (length ts) ys) as [my|] eqn:Ey; [|discriminate]. cbn [bind] in E.
  assert (Sy : samples (length ts) (snd (shape ys)) my) by (apply column_shape; auto).
  destruct (derivative _ my my _ yds) as [myd|] eqn:Eyd; [|discriminate]. cbn [bind] in E.
  assert (Syd : samples (length ts) (snd (shape ys)) myd) by (eapply derivative_samples; [exact Sy|exact Sy|exact Hyd|exact Eyd]).
  destruct (derivative _ my myd _ ydds) as [mydd|] eqn:Eydd; [|discriminate]. cbn [bind] in E.
  assert (Sydd : samples (length ts) (snd (shape ys)) mydd) by (eapply derivative_samples; [exact Sy|exact Syd|exact Hydd|exact Eydd]).
  destruct (match misc with Some a => _ | None => _ end) as [u|] eqn:Em; [|discriminate]. cbn [bind] in E. injection E as <-.
  assert (Ec : mcols my = snd (shape ys)) by apply Sy. cbn. unfold consistent. cbn. rewrite Ec.
  split; [|now repeat split]. do 3 (split; [trivial|]). intros a ->. split; [auto|]. rewrite rows_of_shape in Em. destruct (Nat.eqb_spec (length ts) (fst (shape a))); congruence.
Qed.

(** the constructor with all parts given: exactly the consistent shapes are accepted *)
Lemma new_traj_shapes ts ys yds ydds misc :
  let ok := fst (shape ys) = length ts /\ shape yds = shape ys /\ shape ydds = shape ys /\ (forall a, misc = Some a -> fst (shape a) = length ts) in
  (ok -> exists t, new_traj ts ys (Some yds) (Some ydds) misc = Ok t) /\
  (~ ok -> new_traj ts ys (Some yds) (Some ydds) misc = Err ValueError).
Proof.
  assert (D : forall n ys0 d dt a, nrows ys0 = n -> derivative n ys0 d dt (Some a) = if (Nat.eqb (fst (shape a)) n && Nat.eqb (snd (shape a)) (mcols ys0))%bool
                then column n a else Err ValueError).
  { intros n ys0 d dt a Hn. destruct a as [l|m]; cbn.
    - destruct (Nat.eqb (length l) n) eqn:E; cbn; [|reflexivity]. unfold same_shape, nrows. cbn. rewrite map_length. unfold nrows in Hn. rewrite Hn.
      rewrite (Nat.eqb_sym n), E. cbn. now destruct (mcols ys0) as [|[|k]].
    - unfold same_shape. rewrite Hn. unfold nrows. rewrite (Nat.eqb_sym n), (Nat.eqb_sym (mcols ys0)). now destruct (_ && _)%bool. }
  cbv zeta. unfold new_traj. rewrite rows_of_shape. destruct (Nat.eqb_spec (length ts) (fst (shape ys))) as [En|Hn].
  2: { split; [intros (H & _); congruence|reflexivity]. }
  destruct (column_ok (length ts) ys (eq_sym En)) as (my & Ey & Ny & Cy). rewrite Ey. cbn [bind]. rewrite (D _ _ _ _ yds Ny).
  split.
  - intros (_ & Hd & Hdd & Hm). rewrite Hd, <- En, Nat.eqb_refl, Cy, Nat.eqb_refl. cbn [andb].
    destruct (column_ok (length ts) yds ltac:(rewrite Hd; congruence)) as (myd & Eyd & _). rewrite Eyd. cbn [bind].
    rewrite (D _ _ _ _ ydds Ny), Hdd, <- En, Nat.eqb_refl, Cy, Nat.eqb_refl. cbn [andb].
    destruct (column_ok (length ts) ydds ltac:(rewrite Hdd; congruence)) as (mydd & Eydd & _). rewrite Eydd. cbn [bind].
    destruct misc as [a|]; [|eexists; reflexivity]. rewrite rows_of_shape, (Hm a eq_refl), Nat.eqb_refl. eexists. reflexivity.
  - intros Hno. destruct (Nat.eqb_spec (fst (shape yds)) (length ts)) as [H1|]; [|reflexivity]. destruct (Nat.eqb_spec (snd (shape yds)) (mcols my)) as [H2|]; [|reflexivity].
    cbn [andb]. destruct (column_ok (length ts) yds H1) as (myd & Eyd & _). rewrite Eyd. cbn [bind]. rewrite (D _ _ _ _ ydds Ny).
    destruct (Nat.eqb_spec (fst (shape ydds)) (length ts)) as [H3|]; [|reflexivity]. destruct (Nat.eqb_spec (snd (shape ydds)) (mcols my)) as [H4|]; [|reflexivity].
    cbn [andb]. destruct (column_ok (length ts) ydds H3) as (mydd & Eydd & _). rewrite Eydd. cbn [bind].
    destruct misc as [a|].
    + rewrite rows_of_shape. destruct (Nat.eqb_spec (length ts) (fst (shape a))) as [H5|]; [|reflexivity]. exfalso. apply Hno.
      split; [congruence|]. split; [rewrite (surjective_pairing (shape yds)), (surjective_pairing (shape ys)); congruence|].
      split; [rewrite (surjective_pairing (shape ydds)), (surjective_pairing (shape ys)); congruence|]. intros b Hb. injection Hb as <-. congruence.
    + exfalso. apply Hno. split; [congruence|]. split; [rewrite (surjective_pairing (shape yds)), (surjective_pairing (shape ys)); congruence|].
      split; [rewrite (surjective_pairing (shape ydds)), (surjective_pairing (shape ys)); congruence|]. discriminate.
Qed.

(** ** operations keep trajectories consistent *)
Lemma slice_len {A B} s e (l : list A) (m : list B) : length l = length m -> length (slice s e l) = length (slice s e m).
Proof. intros H. unfold slice. now rewrite !firstn_length, !skipn_length, H. Qed.
Lemma mslice_samples s e n d m (ts : list R) : length ts = n -> samples n d m -> samples (length (slice s e ts)) d (mslice s e m).
Proof.
  intros Hl (Hc & Hn & Hr). split; [trivial|]. cbn. split; [apply slice_len; congruence|]. intros r H. apply Hr. unfold slice in H. now apply In_firstn, In_skipn in H.
Qed.
Lemma do_crop_consistent t s e t' : consistent t -> do_crop t s e = (t', Ok tt) -> consistent t' /\ tj_dim t' = tj_dim t.
Proof.
  intros (H1 & H2 & H3 & H4) E. unfold do_crop in E. destruct (tj_misc t) as [[l|m]|] eqn:Em; [discriminate| |]; injection E as <-; cbn; (split; [|reflexivity]).
  - unfold consistent. cbn. split; [now apply (mslice_samples s e (length (tj_ts t)))|]. split; [now apply (mslice_samples s e (length (tj_ts t)))|]. split; [now apply (mslice_samples s e (length (tj_ts t)))|].
    intros a Ha. injection Ha as <-. destruct (H4 _ eq_refl) as (Hm & Hl). apply array_samples in Hm. split.
    + cbn. eexists _, _. eapply mslice_samples; [|exact Hm]. exact (eq_sym Hl).
    + cbn. apply slice_len. exact Hl.
  - unfold consistent. cbn. split; [now apply (mslice_samples s e (length (tj_ts t)))|]. split; [now apply (mslice_samples s e (length (tj_ts t)))|]. split; [now apply (mslice_samples s e (length (tj_ts t)))|]. discriminate.
Qed.
Lemma concat_samples a b m n1 n2 d d2 : samples n1 d a -> samples n2 d2 b -> concat a b = Ok m -> samples (n1 + n2) d m /\ d2 = d.
Proof.
  intros (A1 & A2 & A3) (B1 & B2 & B3) E. unfold concat in E. destruct (Nat.eqb_spec (mcols a) (mcols b)) as [Ec|]; [|discriminate]. injection E as <-.
  split; [|congruence]. split; [trivial|]. cbn. rewrite app_length, A2, B2. split; [reflexivity|]. intros r H. apply in_app_or in H.
  destruct H as [H|H]; [now apply A3|]. rewrite (B3 r H). congruence.
Qed.
Lemma concat_misc_ok a b n1 n2 c : (forall x, a = Some x -> array x /\ fst (shape x) = n1) -> (forall x, b = Some x -> array x /\ fst (shape x) = n2) ->
  concat_misc a b = Ok c -> forall x, c = Some x -> array x /\ fst (shape x) = (n1 + n2)%nat.
Proof.
  intros Ha Hb E x Hx. subst c. destruct a as [[l|m]|], b as [[l'|m']|]; cbn in E; try discriminate.
  - injection E as <-. destruct (Ha _ eq_refl) as (_ & H1), (Hb _ eq_refl) as (_ & H2). cbn in *. split; [exact I|]. rewrite app_length. congruence.
  - destruct (concat m m') as [m2|] eqn:Ec; [|discriminate]. injection E as <-. destruct (Ha _ eq_refl) as (A1 & H1), (Hb _ eq_refl) as (B1 & H2).
    apply array_samples in A1, B1. destruct (concat_samples _ _ _ _ _ _ _ A1 B1 Ec) as [S _]. split; [cbn; eauto|]. destruct S as (_ & S & _). cbn in *. congruence.
Qed.
Lemma join_consistent t ts a b t' : consistent a -> consistent b -> length ts = (length (tj_ts a) + length (tj_ts b))%nat -> tj_dim a = tj_dim t ->
  join t ts a b = (t', Ok tt) -> consistent t' /\ tj_dim t' = tj_dim t.
Proof.
  intros (A1 & A2 & A3 & A4) (B1 & B2 & B3 & B4) Hl Hd E. unfold join in E.
  destruct (concat (tj_ys a) (tj_ys b)) as [ys|] eqn:E1; [|discriminate]. destruct (concat (tj_yds a) (tj_yds b)) as [yds|] eqn:E2; [|discriminate].
  destruct (concat (tj_ydds a) (tj_ydds b)) as [ydds|] eqn:E3; [|discriminate]. destruct (concat_misc _ _) as [mi|] eqn:E4; [|discriminate]. injection E as <-.
  split; [|reflexivity]. unfold consistent. cbn. rewrite Hl, <- Hd.
  split; [exact (proj1 (concat_samples _ _ _ _ _ _ _ A1 B1 E1))|]. split; [exact (proj1 (concat_samples _ _ _ _ _ _ _ A2 B2 E2))|].
  split; [exact (proj1 (concat_samples _ _ _ _ _ _ _ A3 B3 E3))|].
  eapply concat_misc_ok; eassumption.
Qed.
Lemma zero_consistent t t' r : consistent t -> set_start_time_to_zero t = (t', r) -> consistent t' /\ tj_dim t' = tj_dim t /\ length (tj_ts t') = length (tj_ts t).
Proof.
  intros H E. unfold set_start_time_to_zero in E. destruct (tj_ts t) as [|a l] eqn:El.
  - injection E as <- <-. rewrite El. auto.
  - injection E as <- <-. unfold consistent in *. cbn [set_ts tj_ts tj_dim tj_ys tj_yds tj_ydds tj_misc]. rewrite El in H. cbn [length] in *. rewrite map_length. auto.
Qed.
Lemma append_consistent t u t' : consistent t -> consistent u -> append t u = (t', Ok tt) -> consistent t' /\ tj_dim t' = tj_dim t.
Proof.
  intros Ht Hu E. unfold append in E. destruct (tj_ts u) as [|u0 us] eqn:Eu; [discriminate|]. destruct (tj_ts t) as [|t0 tts] eqn:Et; [discriminate|].
  destruct (tj_dt t) as [dt|]; [|discriminate]. eapply join_consistent in E; [exact E|exact Ht|exact Hu| |reflexivity]. rewrite app_length, map_length, Et, Eu. reflexivity.
Qed.
Lemma prepend_consistent t u t' : consistent t -> consistent u -> prepend t u = (t', Ok tt) -> consistent t' /\ tj_dim t' = tj_dim t.
Proof.
  intros Ht Hu E. unfold prepend in E. destruct (set_start_time_to_zero t) as [t0 [[]|]] eqn:Ez; [|discriminate].
  destruct (zero_consistent t t0 _ Ht Ez) as (H0 & Hd & Hl). destruct (duration u) as [dur|]; [|discriminate]. destruct (tj_dt u) as [dt|]; [|discriminate].
  assert (Hdu : tj_dim u = tj_dim t0).
  { unfold join in E. destruct (concat (tj_ys u) (tj_ys t0)) as [ys|] eqn:E1; [|discriminate].
    destruct Hu as (U1 & _), H0 as (T1 & _). destruct (concat_samples _ _ _ _ _ _ _ U1 T1 E1) as [_ ->]. reflexivity. }
  rewrite <- Hd. eapply join_consistent in E; [exact E|exact Hu|exact H0| |exact Hdu]. now rewrite app_length, map_length.
Qed.
Lemma repeat_samples n d (y : list R) : length y = d -> samples n d (Mat d (repeat y n)).
Proof. intros H. split; [reflexivity|]. cbn. split; [apply repeat_length|]. intros r Hr. apply repeat_spec in Hr. congruence. Qed.
Lemma padding_consistent t n y u : consistent t -> (forall y', y = Ok y' -> length y' = tj_dim t) -> padding t n y = Ok u -> consistent u.
Proof.
  intros (H1 & H2 & H3 & _) Hy E. unfold padding, pad_rows in E. destruct (arange n (tj_dt t)) as [ts|]; [|discriminate]. cbn [bind] in E. destruct y as [y|]; [|discriminate].
  cbn [bind] in E. destruct H1 as (C1 & _), H2 as (C2 & _), H3 as (C3 & _). rewrite C1, C2, C3 in E.
  eapply new_traj_consistent in E; [apply E| | | |].
  - cbn. eexists _, _. apply repeat_samples. now apply Hy.
  - intros a Ha. injection Ha as <-. cbn. eexists _, _. apply repeat_samples, repeat_length.
  - intros a Ha. injection Ha as <-. cbn. eexists _, _. apply repeat_samples, repeat_length.
  - discriminate.
Qed.
Lemma row_dim t i y : consistent t -> nth_res (mrows (tj_ys t)) i = Ok y -> length y = tj_dim t.
Proof. intros ((_ & _ & H) & _) E. apply H. unfold nth_res in E. destruct (nth_error _ _) eqn:En; [|discriminate]. injection E as <-. eapply nth_error_In; eassumption. Qed.
Lemma derive_consistent t t' : consistent t -> recompute_derivatives t = (t', Ok tt) -> consistent t' /\ tj_dim t' = tj_dim t.
Proof.
  intros (H1 & H2 & H3 & H4) E. unfold recompute_derivatives in E. destruct (diffnc (tj_ys t) (tj_dt t)) as [yds|] eqn:E1; [|discriminate].
  destruct (diffnc yds (tj_dt t)) as [ydds|] eqn:E2; [|discriminate]. injection E as <-. split; [|reflexivity]. unfold consistent. cbn.
  split; [trivial|]. pose proof (diffnc_samples _ _ _ _ _ H1 E1) as Sy.
  split; [trivial|]. split; [|trivial]. exact (diffnc_samples _ _ _ _ _ Sy E2).
Qed.

Lemma do_consistent t c t' : consistent t -> good_call c -> t_do t c = (t', Ok tt) -> consistent t' /\ tj_dim t' = tj_dim t.
Proof.
  intros Ht Hc E. destruct c as [s e|s e| |a|u|u|n|n| |f]; cbn in E, Hc.
  - unfold crop in E. destruct (tj_ts t) as [|t0 l]; [now injection E as <-|]. destruct (Z.leb e s); [discriminate|]. eapply do_crop_consistent; eassumption.
  - unfold crop_times in E. destruct (tj_ts t) as [|t0 l]; [now injection E as <-|]. destruct (Rle_dec e s); [discriminate|].
    destruct (Rlt_dec _ s); [now injection E as <-|]. destruct (Rlt_dec e t0); [now injection E as <-|]. eapply do_crop_consistent; eassumption.
  - destruct (zero_consistent t t' _ Ht E) as (H1 & H2 & _). auto.
  - unfold set_misc in E. rewrite rows_of_shape in E. destruct (Nat.eqb_spec (fst (shape a)) (tj_length t)) as [El|]; [|discriminate]. injection E as <-.
    split; [|reflexivity]. destruct Ht as (H1 & H2 & H3 & _). unfold consistent. cbn. do 3 (split; [trivial|]). intros b Hb. injection Hb as <-. auto.
  - eapply append_consistent; eassumption.
  - eapply prepend_consistent; eassumption.
  - unfold pad_front in E. destruct (padding t n (y_init t)) as [u|] eqn:Ep; [|discriminate]. eapply prepend_consistent; [exact Ht| |exact E].
    eapply padding_consistent; [exact Ht| |exact Ep]. intros y. now apply row_dim.
  - unfold pad_end in E. destruct (padding t n (y_final t)) as [u|] eqn:Ep; [|discriminate]. eapply append_consistent; [exact Ht| |exact E].
    eapply padding_consistent; [exact Ht| |exact Ep]. intros y. now apply row_dim.
  - now apply derive_consistent.
  - unfold low_pass in E. destruct (f _ (tj_ys t)) as [ys|] eqn:Ef; [|discriminate].
    apply derive_consistent in E; [exact E|]. destruct Ht as (H1 & H2 & H3 & H4). unfold consistent. cbn. split; [exact (Hc _ _ _ _ _ H1 Ef)|]. auto.
Qed.
Lemma run_consistent cs t t' : consistent t -> Forall good_call cs -> t_run t cs = (t', Ok tt) -> consistent t' /\ tj_dim t' = tj_dim t.
Proof.
  revert t. induction cs as [|c cs IH]; intros t Ht Hc E; cbn in E.
  - injection E as <-. auto.
  - inversion Hc as [|? ? Hc1 Hc2]; subst. destruct (t_do t c) as [t1 [[]|]] eqn:E1; [|discriminate].
    destruct (do_consistent t c t1 Ht Hc1 E1) as (H1 & D1). destruct (IH t1 H1 Hc2 E) as (H2 & D2). split; [trivial|congruence].
Qed.

(** ** failures *)
Lemma concat_ok n1 n2 d a b : samples n1 d a -> samples n2 d b -> concat a b = Ok (Mat d (mrows a ++ mrows b)).
Proof. intros (A & _) (B & _). unfold concat. now rewrite A, B, Nat.eqb_refl. Qed.
Lemma concat_misc_same a b : same_misc a b ->
  concat_misc a b = Ok (match a, b with
                        | Some (V1 x), Some (V1 y) => Some (V1 (x ++ y))
                        | Some (V2 x), Some (V2 y) => Some (V2 (Mat (mcols x) (mrows x ++ mrows y)))
                        | _, _ => None
                        end).
Proof.
  destruct a as [[l|m]|], b as [[l'|m']|]; cbn; try reflexivity; try contradiction. intros H. unfold concat. rewrite H, Nat.eqb_refl. reflexivity.
Qed.
Lemma join_total t ts a b : consistent a -> consistent b -> tj_dim a = tj_dim b -> same_misc (tj_misc a) (tj_misc b) ->
  exists t', join t ts a b = (t', Ok tt) /\ joined a b t' /\ tj_ts t' = ts /\ tj_dim t' = tj_dim t /\ tj_dt t' = tj_dt t.
Proof.
  intros (A1 & A2 & A3 & _) (B1 & B2 & B3 & _) Hd Hm. rewrite <- Hd in *. unfold join.
  rewrite (concat_ok _ _ _ _ _ A1 B1), (concat_ok _ _ _ _ _ A2 B2), (concat_ok _ _ _ _ _ A3 B3), (concat_misc_same _ _ Hm).
  eexists. split; [reflexivity|]. cbn. unfold joined. cbn. now repeat split.
Qed.
Lemma same_misc_sym a b : same_misc a b -> same_misc b a.
Proof. destruct a as [[l|m]|], b as [[l'|m']|]; cbn; auto. Qed.
Lemma padding_misc t n y u : padding t n y = Ok u -> tj_misc u = None /\ tj_ts u = match tj_dt t with Some d => map (fun i => INR i * d) (seq 0 n) | None => [] end.
Proof.
  unfold padding, pad_rows. destruct (arange n (tj_dt t)) as [ts|] eqn:Ea; [|discriminate]. cbn [bind]. destruct y as [y|]; [|discriminate]. cbn [bind].
  unfold arange in Ea. destruct (tj_dt t) as [d|]; [|discriminate]. destruct (Req_EM_T d 0); [discriminate|]. injection Ea as <-.
  unfold new_traj. destruct (Nat.eqb _ _); [|discriminate]. destruct (column _ _); [|discriminate]. cbn [bind].
  destruct (derivative _ _ _ _ _) as [yds|]; [|discriminate]. cbn [bind]. destruct (derivative _ _ _ _ _) as [ydds|]; [|discriminate]. cbn [bind].
  intros H. injection H as <-. auto.
Qed.
Lemma padding_dim t n y u : consistent t -> (forall y', y = Ok y' -> length y' = tj_dim t) -> padding t n y = Ok u -> tj_dim u = tj_dim t.
Proof.
  intros (H1 & H2 & H3 & _) Hy. unfold padding, pad_rows. destruct (arange n (tj_dt t)) as [ts|]; [|discriminate]. cbn [bind]. destruct y as [y|]; [|discriminate]. cbn [bind].
  unfold new_traj. destruct (Nat.eqb _ _); [|discriminate]. cbn [column bind].
  destruct (derivative _ _ _ _ _) as [yds|]; [|discriminate]. cbn [bind]. destruct (derivative _ _ _ _ _) as [ydds|]; [|discriminate]. cbn [bind].
  intros H. injection H as <-. cbn. apply H1.
Qed.

Lemma append_fail t u t' e : consistent t -> consistent u -> joinable t u -> append t u = (t', Err e) -> t' = t.
Proof.
  intros Ht Hu (Hd & Hm) E. unfold append in E. destruct (tj_ts u) as [|u0 us]; [now injection E as <-|]. destruct (tj_ts t) as [|t0 tts]; [now injection E as <-|].
  destruct (tj_dt t) as [dt|]; [|now injection E as <-].
  destruct (join_total t ((t0 :: tts) ++ map (fun x => x - u0 + (last (t0 :: tts) 0 + dt)) (u0 :: us)) t u Ht Hu Hd Hm) as (t2 & E2 & _). rewrite E2 in E. discriminate.
Qed.
Lemma prepend_fail t u t' e : consistent t -> consistent u -> joinable t u -> tj_ts u <> [] -> e <> NonFinite -> prepend t u = (t', Err e) -> t' = t.
Proof.
  intros Ht Hu (Hd & Hm) Hne He E. unfold prepend in E. destruct (set_start_time_to_zero t) as [t0 [[]|]] eqn:Ez.
  - destruct (zero_consistent t t0 _ Ht Ez) as (H0 & Hd0 & Hl). unfold duration in E. destruct (tj_ts u) as [|u0 us] eqn:Eu; [contradiction|].
    destruct (tj_dt u) as [dt|]; [|injection E; congruence].
    assert (Hm0 : tj_misc t0 = tj_misc t). { unfold set_start_time_to_zero in Ez. destruct (tj_ts t); [discriminate|]. now injection Ez as <-. }
    destruct (join_total t0 ((u0 :: us) ++ map (fun x => x + (last (u0 :: us) 0 - u0 + dt)) (tj_ts t0)) u t0 Hu H0) as (t2 & E2 & _);
      [congruence|rewrite Hm0; now apply same_misc_sym|]. rewrite E2 in E. discriminate.
  - injection E as <- <-. unfold set_start_time_to_zero in Ez. destruct (tj_ts t); [now injection Ez as <-|discriminate].
Qed.
Lemma pad_ts_ne t n y u : (1 <= n)%nat -> padding t n y = Ok u -> tj_ts u <> [].
Proof.
  intros Hn E. pose proof (padding_misc t n y u E) as [_ ->]. unfold padding in E. destruct (tj_dt t) as [d|]; [|discriminate].
  destruct n; [lia|]. discriminate.
Qed.
Lemma do_fail t c t' e : consistent t -> good_call c -> fits t c -> e <> NonFinite -> t_do t c = (t', Err e) -> t' = t.
Proof.
  intros Ht Hg Hf He E. destruct c as [s e'|s e'| |a|u|u|n|n| |f]; cbn in E, Hf, Hg.
  - unfold crop in E. destruct (tj_ts t) as [|t0 l]; [discriminate|]. destruct (Z.leb e' s); [now injection E as <-|].
    unfold do_crop in E. destruct (tj_misc t) as [[x|m]|]; [|discriminate|discriminate]. now destruct (Hf x).
  - unfold crop_times in E. destruct (tj_ts t) as [|t0 l]; [discriminate|]. destruct (Rle_dec e' s); [now injection E as <-|].
    destruct (Rlt_dec _ s); [discriminate|]. destruct (Rlt_dec e' t0); [discriminate|].
    unfold do_crop in E. destruct (tj_misc t) as [[x|m]|]; [|discriminate|discriminate]. now destruct (Hf x).
  - unfold set_start_time_to_zero in E. destruct (tj_ts t); [now injection E as <-|discriminate].
  - unfold set_misc in E. destruct (Nat.eqb _ _); [discriminate|now injection E as <-].
  - destruct Hf as [Hf _]. eapply append_fail; eassumption.
  - destruct Hf as [Hf1 Hf2]. eapply prepend_fail; eassumption.
  - unfold pad_front in E. destruct (padding t n (y_init t)) as [u|] eqn:Ep; [|now injection E as <-].
    eapply prepend_fail; [exact Ht| | | |exact He|exact E].
    + eapply padding_consistent; [exact Ht| |exact Ep]. intros y. now apply row_dim.
    + split; [symmetry; eapply padding_dim; [exact Ht| |exact Ep]; intros y; now apply row_dim|].
      destruct (padding_misc _ _ _ _ Ep) as [-> _]. now destruct (tj_misc t) as [[]|].
    + eapply pad_ts_ne; eassumption.
  - unfold pad_end in E. destruct (padding t n (y_final t)) as [u|] eqn:Ep; [|now injection E as <-].
    eapply append_fail; [exact Ht| | |exact E].
    + eapply padding_consistent; [exact Ht| |exact Ep]. intros y. now apply row_dim.
    + split; [symmetry; eapply padding_dim; [exact Ht| |exact Ep]; intros y; now apply row_dim|].
      destruct (padding_misc _ _ _ _ Ep) as [-> _]. now destruct (tj_misc t) as [[]|].
  - unfold recompute_derivatives in E. destruct (diffnc (tj_ys t) (tj_dt t)) as [yds|] eqn:E1; [|now injection E as <-].
    destruct (diffnc yds (tj_dt t)) as [ydds|e2] eqn:E2; [discriminate|]. exfalso. injection E as <- <-.
    destruct Ht as (Hy & _). pose proof (diffnc_samples _ _ _ _ _ Hy E1) as (_ & N2 & _). destruct Hy as (_ & N1 & _).
    unfold diffnc, nrows in E1, E2. rewrite N1 in E1. rewrite N2 in E2. destruct (Nat.eqb _ _); [discriminate|]. destruct (Nat.ltb _ _); [discriminate|].
    destruct (tj_dt t); [|discriminate]. destruct (Req_EM_T _ _); discriminate.
  - unfold low_pass in E. destruct (f _ (tj_ys t)) as [ys|] eqn:Ef; [|now injection E as <-]. exfalso.
    destruct Ht as (Hy & _). pose proof (Hg _ _ _ _ _ Hy Ef) as Hy'.
    unfold recompute_derivatives in E. cbn [set_data tj_ts tj_ys tj_dt] in E. destruct (diffnc ys (tj_dt t)) as [yds|e2] eqn:E1.
    + pose proof (diffnc_samples _ _ _ _ _ Hy' E1) as (_ & N2 & _). destruct (diffnc yds (tj_dt t)) as [ydds|e2] eqn:E2; [discriminate|]. injection E as <- <-.
      destruct Hy' as (_ & N1 & _). unfold diffnc, nrows in E1, E2. rewrite N1 in E1. rewrite N2 in E2. destruct (Nat.eqb _ _); [discriminate|]. destruct (Nat.ltb _ _); [discriminate|].
      destruct (tj_dt t); [|discriminate]. destruct (Req_EM_T _ _); discriminate.
    + injection E as <- <-. destruct Hy' as (_ & N1 & _). unfold diffnc, nrows in E1. rewrite N1 in E1.
      destruct (Nat.eqb_spec (length (tj_ts t)) 0); [lia|]. destruct (Nat.ltb_spec (length (tj_ts t)) 2); [lia|].
      destruct (tj_dt t); [|congruence]. destruct (Req_EM_T _ _); congruence.
Qed.
