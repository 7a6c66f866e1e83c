(** Proofs about contextual DMPs: training. *)
From Coq Require Import String.
From Verif Require Import Base BaseLemmas DynModel DynSpec ParamModel ParamSpec ParamProofs TrajModel DmpModel DmpSpec DmpProofs6 DmpProofs8 DmpProofs9 DmpProofs14 ContextModel ContextSpec ContextProofs.
Open Scope R_scope.

(** ** The setters used by training *)
Definition setup3 (m : dmp) (tau : R) (y0 yN : list R) : res dmp :=
  let* m := set_tau m tau in let* m := set_y0 m y0 in set_yattr m yN.

Lemma goal_attr_frame m y g : goal_attr m y = Ok g -> exp_goal_fits m ->
  match g with Some (SubE e) => e_attr e = y /\ length (e_init e) = m_dim m /\ m_req m = false | _ => True end.
Proof.
  unfold goal_attr, exp_goal_fits. destruct (m_goal m) as [[e|s|h|h]|]; cbn; intros E H; try (destruct (m_req m); injection E as <-; exact I).
  - destruct H as [H1 H2]. rewrite H2 in E. destruct (Nat.eqb _ _); [|discriminate]. injection E as <-. cbn. auto.
Qed.
(** what the setters do *)
Lemma set_tau_frame m t m' : set_tau m t = Ok m' -> m_tau m <> 0 /\
  m' = upd_tau m t (d_set_tau (m_spring m) (d_tau (m_spring m) * (t / m_tau m)))
         (option_map (fun s => sub_set_tau s (sub_tau s * (t / m_tau m))) (m_goal m))
         (sub_set_tau (m_phase m) (sub_tau (m_phase m) * (t / m_tau m))) (sub_set_tau (m_gating m) (sub_tau (m_gating m) * (t / m_tau m))).
Proof. unfold set_tau. destruct (Req_EM_T (m_tau m) 0); [discriminate|]. intros H. split; [assumption|]. congruence. Qed.
Lemma set_y0_frame m y m' : set_y0 m y = Ok m' -> length y = m_dim m /\
  exists sp g, d_set_y_init (m_spring m) y = Ok sp /\
    match m_goal m with
    | Some g0 => if m_req m then g = Some g0 else exists g1, sub_set_y_init g0 y = Ok g1 /\ g = Some g1
    | None => g = None
    end /\ m' = upd_y0 m y sp g.
Proof.
  unfold set_y0. destruct (Nat.eqb_spec (length y) (m_dim m)); [|discriminate]. intros H. split; [assumption|].
  destruct (d_set_y_init (m_spring m) y) as [sp|]; [|discriminate]. cbn [bind] in H.
  destruct (m_goal m) as [g0|]; [destruct (m_req m)|].
  - exists sp, (Some g0). cbn in H. repeat split. congruence.
  - destruct (sub_set_y_init g0 y) as [g1|]; [|discriminate]. exists sp, (Some g1). cbn in H. split; [reflexivity|]. split; [|congruence].
    now exists g1.
  - exists sp, None. cbn in H. repeat split. congruence.
Qed.
Lemma set_yattr_frame m y m' : set_yattr m y = Ok m' -> length y = m_dim m /\ exists g, goal_attr m y = Ok g /\ m' = upd_attr m y g.
Proof.
  unfold set_yattr. destruct (Nat.eqb_spec (length y) (m_dim m)); [|discriminate]. intros H. split; [assumption|].
  destruct (goal_attr m y) as [g|]; [|discriminate]. cbn in H. exists g. split; [reflexivity|congruence].
Qed.
Lemma exp_goal_tau m t m' : set_tau m t = Ok m' -> exp_goal_fits m -> exp_goal_fits m'.
Proof. intros H. apply set_tau_frame in H. destruct H as [_ ->]. unfold exp_goal_fits. cbn. destruct (m_goal m) as [[]|]; auto. Qed.
Lemma exp_goal_y0 m t m' : set_y0 m t = Ok m' -> exp_goal_fits m -> exp_goal_fits m'.
Proof.
  intros H. apply set_y0_frame in H. destruct H as (L & sp & g & _ & G & ->). unfold exp_goal_fits. cbn.
  destruct (m_goal m) as [g0|]; [|now rewrite G]. destruct (m_req m) eqn:Er.
  - rewrite G. destruct g0; auto.
  - destruct G as (g1 & E & ->). destruct g0 as [e|s|h|h]; cbn in E; unfold sub_set_y_init in E; cbn in E.
    + destruct (set_y_init _ _ t) as [x|] eqn:Ex; [|discriminate]. cbn in E. injection E as <-. cbn. intros [H1 _]. split; [|reflexivity].
      unfold set_y_init, set_x_init in Ex. destruct (Nat.eqb _ _); [|discriminate]. destruct (Nat.eqb_spec (length (pad (length (e_init e)) t)) (length (e_init e))); [|discriminate].
      injection Ex as <-. congruence.
    + destruct (set_y_init _ _ t) as [x|] eqn:Ex; [|discriminate]. cbn in E. now injection E as <-.
    + destruct (set_y_init _ _ t) as [x|] eqn:Ex; [|discriminate]. cbn in E. now injection E as <-.
    + destruct (set_y_init _ _ t) as [x|] eqn:Ex; [|discriminate]. cbn in E. now injection E as <-.
Qed.
Lemma setup3_frame m tau y0 yN m3 : setup3 m tau y0 yN = Ok m3 ->
  length y0 = m_dim m /\ length yN = m_dim m /\ m_tau m <> 0 /\
  m_tau m3 = tau /\ m_dim m3 = m_dim m /\ m_x_init m3 = m_x_init m /\ m_y0 m3 = Some y0 /\ m_attr m3 = yN /\ m_fas m3 = m_fas m /\
  m_sel m3 = m_sel m /\ m_req m3 = m_req m /\ m_scaling m3 = m_scaling m /\ m_ts_train m3 = m_ts_train m /\
  (exp_goal_fits m -> exp_goal_fits m3 /\ synced m3).
Proof.
  unfold setup3. intros H. destruct (set_tau m tau) as [m1|] eqn:E1; [|discriminate]. cbn [bind] in H.
  destruct (set_y0 m1 y0) as [m2|] eqn:E2; [|discriminate]. cbn [bind] in H.
  pose proof (exp_goal_tau _ _ _ E1) as G1. pose proof (exp_goal_y0 _ _ _ E2) as G2.
  apply set_tau_frame in E1. destruct E1 as [Hn E1]. apply set_y0_frame in E2. destruct E2 as (L0 & sp & g & _ & _ & E2).
  apply set_yattr_frame in H. destruct H as (L1 & g' & Eg & H).
  assert (D2 : m_dim m2 = m_dim m) by (rewrite E2, E1; reflexivity). assert (D1 : m_dim m1 = m_dim m) by (rewrite E1; reflexivity).
  split; [congruence|]. split; [congruence|]. split; [exact Hn|].
  split; [rewrite H, E2, E1; reflexivity|]. split; [rewrite H; exact D2|]. do 8 (split; [rewrite H, E2, ?E1; reflexivity|]).
  intros F. pose proof (goal_attr_frame m2 yN g' Eg (G2 (G1 F))) as K. rewrite H. unfold exp_goal_fits, synced. cbn.
  destruct g' as [[e|s|h|h]|]; tauto.
Qed.

Section S.
Variable predict_fn : nat -> list (string * pval) -> R -> res R.
Variable train_fn : nat -> list R -> list R -> res (list (string * pval)).
Variable ppf_predict : nat -> list (string * pval) -> mat -> res (list R).
Variable ppf_train : nat -> mat -> list R -> res (list (string * pval)).

(** training: the setters, then the amplitudes, the function approximators and the times *)
Lemma train_split m t m' : m_train predict_fn train_fn m t = Ok m' ->
  exists m3 amps fas', tj_ts t <> [] /\ mrows (tj_ys t) <> [] /\
    setup3 m (last (tj_ts t) 0) (nth 0 (mrows (tj_ys t)) []) (last (mrows (tj_ys t)) []) = Ok m3 /\
    m' = upd_ts (upd_fas (upd_amps m3 (Some amps)) fas') (Some (tj_ts t)) /\
    match m_fas m with
    | None => fas' = None
    | Some fs => exists phs tg trained, length trained = m_dim m /\ fas' = Some (trained ++ skipn (m_dim m) fs)%list /\
        (m_dim m <= length fs)%nat /\
        forall i f, (i < m_dim m)%nat -> nth_error fs i = Some f ->
          exists ps, train_fn i phs (col i tg) = Ok ps /\ nth_error trained i = Some (Fa ps (Some 1%nat) (f_sel f))
    end.
Proof.
  unfold m_train. intros H.
  destruct (last_res (tj_ts t)) as [tau|] eqn:E1; [|discriminate]. cbn [bind] in H.
  destruct (set_tau m tau) as [m1|] eqn:E2; [|discriminate]. cbn [bind] in H.
  destruct (nth_res (mrows (tj_ys t)) 0) as [y0|] eqn:E3; [|discriminate]. cbn [bind] in H.
  destruct (set_y0 m1 y0) as [m2|] eqn:E4; [|discriminate]. cbn [bind] in H.
  destruct (last_res (mrows (tj_ys t))) as [yN|] eqn:E5; [|discriminate]. cbn [bind] in H.
  destruct (set_yattr m2 yN) as [m3|] eqn:E6; [|discriminate]. cbn [bind] in H.
  destruct (get_range_per_dim t) as [amps|] eqn:E7; [|discriminate]. cbn [bind] in H.
  assert (N1 : tj_ts t <> []) by (intros E; rewrite E, last_res_nil in E1; discriminate).
  assert (N2 : mrows (tj_ys t) <> []) by (intros E; rewrite E, last_res_nil in E5; discriminate).
  rewrite (last_res_ok _ 0 N1) in E1. rewrite (last_res_ok _ [] N2) in E5.
  assert (E3' : nth 0 (mrows (tj_ys t)) [] = y0) by (unfold nth_res in E3; destruct (mrows (tj_ys t)); cbn in *; congruence).
  assert (E1' : last (tj_ts t) 0 = tau) by congruence. assert (E5' : last (mrows (tj_ys t)) [] = yN) by congruence.
  assert (S3 : setup3 m tau y0 yN = Ok m3) by (unfold setup3; rewrite E2; cbn [bind]; rewrite E4; cbn [bind]; exact E6).
  destruct (setup3_frame _ _ _ _ _ S3) as (_ & _ & _ & _ & D3 & _ & _ & _ & F3 & _).
  change (m_fas (upd_amps m3 (Some amps))) with (m_fas m3) in H. rewrite F3 in H. change (m_dim (upd_amps m3 (Some amps))) with (m_dim m3) in H. rewrite D3 in H.
  rewrite E3', E1', E5'. exists m3, amps. destruct (m_fas m) as [fs|] eqn:Ef.
  - destruct (targets _ _ _) as [[phs tg]|]; [|discriminate]. cbn [bind fst snd] in H.
    destruct (mapM _ (seq 0 (m_dim m))) as [trained|] eqn:EM; [|discriminate]. cbn [bind] in H.
    pose proof (mapM_ok_length _ _ _ EM) as Lt. rewrite seq_length in Lt.
    exists (Some (trained ++ skipn (m_dim m) fs)%list). do 3 (split; [assumption|]). split; [congruence|].
    exists phs, tg, trained. split; [exact Lt|]. split; [reflexivity|].
    assert (Hn : forall i, (i < m_dim m)%nat -> exists f ps, nth_error fs i = Some f /\ train_fn i phs (col i tg) = Ok ps /\ nth_error trained i = Some (Fa ps (Some 1%nat) (f_sel f))).
    { intros i Hi. pose proof (mapM_nth _ _ _ EM i 0%nat (Fa [] None None) ltac:(now rewrite seq_length)) as Hm.
      rewrite seq_nth in Hm by trivial. cbn [Nat.add] in Hm. unfold nth_res in Hm. destruct (nth_error fs i) as [f|]; [|discriminate]. cbn [bind] in Hm.
      destruct (train_fn i phs (col i tg)) as [ps|]; [|discriminate]. cbn [bind] in Hm. exists f, ps. do 2 (split; [reflexivity|]).
      rewrite (nth_error_nth' _ (Fa [] None None)) by lia. congruence. }
    split.
    + destruct (Nat.le_gt_cases (m_dim m) (length fs)) as [|G]; [assumption|]. destruct (Hn _ G) as (f & _ & Ef' & _).
      assert (length fs < length fs)%nat by (apply nth_error_Some; congruence). lia.
    + intros i f Hi Hf. destruct (Hn i Hi) as (f' & ps & A & B & C). assert (f' = f) by congruence. subst f'. now exists ps.
  - exists None. do 3 (split; [assumption|]). split; [|reflexivity]. cbn [bind] in H.
    injection H as <-. unfold upd_fas, upd_ts, upd_amps. cbn. rewrite F3. reflexivity.
Qed.

Lemma select_frame m ns : m_tau (m_select m ns) = m_tau m /\ m_dim (m_select m ns) = m_dim m /\ m_x_init (m_select m ns) = m_x_init m /\
  m_goal (m_select m ns) = m_goal m /\ m_req (m_select m ns) = m_req m /\ m_scaling (m_select m ns) = m_scaling m /\
  m_sel (m_select m ns) = (if mem "goal" (name_list ns) then ["goal"%string] else m_sel m).
Proof. repeat split; unfold m_select, dmp_select; cbn; destruct (mem "goal" (name_list ns)); reflexivity. Qed.

Definition trained_copy (m1 : dmp) (p : list R * traj) (c : dmp * list R) : Prop := train_copy predict_fn train_fn m1 (snd p) = Ok c.
Lemma c_train_split c data ns a c' : c_train predict_fn train_fn ppf_train c data ns a = Ok c' ->
  exists copies mL vL m' fs ppf,
    Forall2 (trained_copy (m_select (c_dmp c) ns)) data copies /\ copies <> [] /\ last copies (mL, vL) = (mL, vL) /\ In (mL, vL) copies /\
    setup3 mL (avg (map m_tau (map fst copies))) (avg_rows (map get_y0 (map fst copies))) (avg_rows (map m_attr (map fst copies))) = Ok m' /\
    Forall (fun q => length q = length (hd [] (map fst data))) (map fst data) /\
    Forall (fun v => length v = length (hd [] (map snd copies))) (map snd copies) /\
    ppf_list a (length vL) = Ok fs /\ length ppf = length vL /\
    (forall i, (i < length vL)%nat -> exists f f', nth_error fs i = Some f /\ nth_error ppf i = Some f' /\
       train f (fun x => ppf_train i x (col i (map snd copies))) (In2 (Mat (length (hd [] (map fst data))) (map fst data))) = (f', Ok tt)) /\
    c' = Ctx m' (Some ppf) (c_tau c).
Proof.
  unfold c_train. intros H. destruct (mapM _ data) as [copies|] eqn:EM; [|discriminate]. cbn [bind] in H.
  destruct copies as [|c0 rest]; [discriminate|]. set (copies := c0 :: rest) in *.
  destruct (last copies c0) as [mL vL] eqn:EL.
  destruct (set_means mL (map fst copies)) as [m'|] eqn:Es; [|discriminate]. cbn [bind] in H.
  unfold as_matrix in H. destruct (forallb _ (map snd copies)) eqn:F1; [|discriminate]. cbn [bind mrows] in H.
  destruct (forallb _ (map fst data)) eqn:F2; [|discriminate]. cbn [bind] in H.
  destruct (ppf_list a (length vL)) as [fs|] eqn:Ep; [|discriminate]. cbn [bind] in H.
  destruct (train_ppf _ _ _ _ _) as [ppf|] eqn:Et; [|discriminate]. cbn [bind] in H.
  exists copies, mL, vL, m', fs, ppf.
  assert (EL2 : forall d, last copies d = (mL, vL)).
  { intros d. rewrite <- EL. destruct (exists_last (l := copies)) as (l & x & E); [discriminate|]. now rewrite E, !last_last. }
  split; [apply mapM_ok_iff in EM; exact EM|]. split; [discriminate|]. split; [apply EL2|].
  split.
  { rewrite <- EL. destruct (exists_last (l := copies)) as (l & x & E); [discriminate|]. rewrite E, last_last. apply in_or_app. right. now left. }
  split; [exact Es|].
  split; [apply Forall_forall; intros q Hq; rewrite forallb_forall in F2; apply Nat.eqb_eq; now apply F2|].
  split; [apply Forall_forall; intros q Hq; rewrite forallb_forall in F1; apply Nat.eqb_eq; now apply F1|].
  split; [exact Ep|]. unfold train_ppf in Et. pose proof (mapM_ok_length _ _ _ Et) as Lp. rewrite seq_length in Lp. split; [exact Lp|].
  split; [|congruence].
  intros i Hi. pose proof (mapM_nth _ _ _ Et i 0%nat (Fa [] None None) ltac:(now rewrite seq_length)) as Hm.
  rewrite seq_nth in Hm by trivial. cbn [Nat.add] in Hm. unfold nth_res in Hm. destruct (nth_error fs i) as [f|]; [|discriminate]. cbn [bind] in Hm.
  destruct (train f _ _) as [f' [[]|]] eqn:Ef; [|discriminate]. cbn [bind] in Hm. exists f, f'. split; [reflexivity|]. split; [|exact Ef].
  rewrite (nth_error_nth' _ (Fa [] None None)) by lia. congruence.
Qed.

Lemma copy_frame m1 p mk vk : trained_copy m1 p (mk, vk) -> m_train predict_fn train_fn m1 (snd p) = Ok mk /\ m_get_params mk = Ok vk.
Proof.
  unfold trained_copy, train_copy. destruct (m_train _ _ _ _) as [m'|]; [|discriminate]. cbn [bind].
  destruct (m_get_params m') as [v|] eqn:E; [|discriminate]. cbn [bind]. intros H. injection H as <- <-. now split.
Qed.
Lemma train_frame m t mk : m_train predict_fn train_fn m t = Ok mk ->
  m_tau mk = last (tj_ts t) 0 /\ m_dim mk = m_dim m /\ m_x_init mk = m_x_init m /\ m_y0 mk = Some (nth 0 (mrows (tj_ys t)) []) /\
  m_attr mk = last (mrows (tj_ys t)) [] /\ length (m_attr mk) = m_dim m /\ m_sel mk = m_sel m /\ m_req mk = m_req m /\ m_scaling mk = m_scaling m /\
  (exp_goal_fits m -> exp_goal_fits mk /\ synced mk).
Proof.
  intros H. destruct (train_split _ _ _ H) as (m3 & amps & fas' & _ & _ & E & -> & _).
  destruct (setup3_frame _ _ _ _ _ E) as (L0 & L1 & _ & A1 & A2 & A3 & A4 & A5 & A6 & A7 & A8 & A9 & A10 & A11). cbn.
  repeat (split; [assumption|]). split; [congruence|]. repeat (split; [assumption|]). exact A11.
Qed.

(** means *)
Lemma avg_rows_length rows : length (avg_rows rows) = length (hd [] rows).
Proof. unfold avg_rows. now rewrite map_length, seq_length. Qed.
Lemma nth_avg_rows rows j : (j < length (hd [] rows))%nat -> nth j (avg_rows rows) 0 = avg (map (fun r => nth j r 0) rows).
Proof. intros H. unfold avg_rows. now rewrite (nth_map_seq (fun j => avg (map (fun r => nth j r 0) rows))). Qed.
Lemma avg_const l x : l <> [] -> Forall (eq x) l -> avg l = x.
Proof.
  intros N F. unfold avg. assert (E : rsum l = INR (length l) * x).
  { clear N. induction F as [|y l <- F IH]; [cbn; ring|]. cbn [rsum length]. rewrite IH, S_INR. ring. }
  rewrite E. field. apply not_0_INR. destruct l; [congruence|discriminate].
Qed.
Lemma avg_rows_const rows y : rows <> [] -> Forall (eq y) rows -> avg_rows rows = y.
Proof.
  intros N F. destruct rows as [|r rows]; [congruence|]. assert (r = y) by (inversion F; congruence). subst r.
  apply (nth_ext _ _ 0 0); [apply avg_rows_length|]. intros j Hj. rewrite avg_rows_length in Hj. rewrite nth_avg_rows by exact Hj.
  apply avg_const; [discriminate|]. apply Forall_map. eapply Forall_impl; [|exact F]. cbn. now intros a <-.
Qed.
Lemma avg_mean {A} (data : list (list R * traj)) (copies : list A) (f : traj -> R) (g : A -> R) :
  Forall2 (fun p c => g c = f (snd p)) data copies -> avg (map g copies) = mean_over data f.
Proof.
  intros F. unfold avg, mean_over. rewrite map_length. f_equal; [|f_equal; f_equal; symmetry; eapply Forall2_len; eauto].
  f_equal. induction F as [|p c data copies E F IH]; [reflexivity|]. cbn. now rewrite E, IH.
Qed.

(** what training leaves in the DMP *)
Lemma trained_means c data ns a c' : c_train predict_fn train_fn ppf_train c data ns a = Ok c' ->
  m_dim (c_dmp c') = m_dim (c_dmp c) /\
  m_tau (c_dmp c') = mean_over data (fun t => last (tj_ts t) 0) /\
  length (m_attr (c_dmp c')) = m_dim (c_dmp c) /\
  (forall j, (j < m_dim (c_dmp c))%nat ->
     nth j (m_attr (c_dmp c')) 0 = mean_over data (fun t => nth j (last (mrows (tj_ys t)) []) 0)) /\
  m_y0 (c_dmp c') = Some (get_y0 (c_dmp c)) /\ c_tau c' = c_tau c.
Proof.
  intros H. destruct (c_train_split _ _ _ _ _ H) as (copies & mL & vL & m' & fs & ppf & FC & NC & EL & IL & E3 & _ & _ & _ & _ & _ & ->). cbn [c_dmp c_tau].
  destruct (select_frame (c_dmp c) ns) as (S1 & S2 & S3 & _). set (m1 := m_select (c_dmp c) ns) in *.
  assert (FT : Forall2 (fun p (c : dmp * list R) => m_train predict_fn train_fn m1 (snd p) = Ok (fst c)) data copies).
  { eapply Forall2_imp; [|exact FC]. intros p [mk vk] Hp. apply (copy_frame _ _ _ _ Hp). }
  assert (Hall : forall x, In x copies -> m_dim (fst x) = m_dim m1 /\ m_x_init (fst x) = m_x_init m1 /\ length (m_attr (fst x)) = m_dim m1).
  { intros x Hx. apply In_nth_error in Hx. destruct Hx as [k Hk].
    assert (exists p, In p data /\ m_train predict_fn train_fn m1 (snd p) = Ok (fst x)) as (p & _ & Ep).
    { clear -FT Hk. revert k Hk. induction FT as [|p y data copies E F IH]; intros [|k] Hk; cbn in Hk; try discriminate.
      - injection Hk as <-. exists p. split; [now left|exact E].
      - destruct (IH k Hk) as (p' & I1 & I2). exists p'. split; [now right|exact I2]. }
    destruct (train_frame _ _ _ Ep) as (_ & A2 & A3 & _ & _ & A6 & _). auto. }
  destruct (Hall _ IL) as (DL & XL & AL). cbn [fst] in DL, XL, AL.
  destruct (setup3_frame _ _ _ _ _ E3) as (L0 & L1 & _ & A1 & A2 & A3 & A4 & A5 & _).
  split; [congruence|]. split.
  { rewrite A1. rewrite map_map. apply avg_mean. eapply Forall2_imp; [|exact FT]. cbn. intros p y Ep. apply (train_frame _ _ _ Ep). }
  split; [rewrite A5; congruence|]. split.
  { intros j Hj. rewrite A5. rewrite avg_rows_length in L1. rewrite nth_avg_rows by (rewrite L1; congruence).
    rewrite !map_map. apply avg_mean. eapply Forall2_imp; [|exact FT]. cbn. intros p y Ep. now rewrite (proj1 (proj2 (proj2 (proj2 (proj2 (train_frame _ _ _ Ep)))))). }
  split; [|reflexivity]. rewrite A4. f_equal. apply avg_rows_const; [destruct copies; [congruence|discriminate]|].
  rewrite map_map. apply Forall_map. apply Forall_forall. intros x Hx. destruct (Hall x Hx) as (B1 & B2 & _). unfold get_y0. congruence.
Qed.

Lemma train_sub c data ns a c' k p : c_train predict_fn train_fn ppf_train c data ns a = Ok c' -> nth_error data k = Some p ->
  exists mk vk, train_copy predict_fn train_fn (m_select (c_dmp c) ns) (snd p) = Ok (mk, vk).
Proof.
  intros H Hk. destruct (c_train_split _ _ _ _ _ H) as (copies & mL & vL & m' & fs & ppf & FC & _).
  clear H. revert k Hk. induction FC as [|q y data copies E F IH]; intros [|k] Hk; cbn in Hk; try discriminate.
  - injection Hk as <-. destruct y as [mk vk]. now exists mk, vk.
  - now apply (IH k).
Qed.

(** ** The trained contextual DMP can be used *)
Lemma select_goal_fits m ns : exp_goal_fits m -> exp_goal_fits (m_select m ns).
Proof. destruct (select_frame m ns) as (_ & D & _ & G & Rq & _). unfold exp_goal_fits. rewrite D, G, Rq. trivial. Qed.
Lemma filter_none {A} (f : A -> bool) l : (forall x, In x l -> f x = true) -> filter f l = l.
Proof. induction l as [|x l IH]; intros H; [reflexivity|]. cbn. rewrite (H x (or_introl eq_refl)). f_equal. apply IH. intros y Hy. apply H. now right. Qed.
Lemma select_fas m ns : m_fas (m_select m ns) = option_map (map (fun f => fa_select f (NList (fa_names ns)))) (m_fas m).
Proof.
  unfold m_select, dmp_select, fa_names. cbn. destruct (mem "goal" (name_list ns)) eqn:E; [reflexivity|].
  rewrite filter_none; [reflexivity|]. intros x Hx. destruct (String.eqb_spec x "goal") as [->|]; [|reflexivity].
  apply mem_In in Hx. congruence.
Qed.
Lemma get_len p v : dmp_get p = Ok v -> length (p_attr p) = p_dim p -> exists w, fas_get (fas_of p) = Ok w /\
  length v = (length w + if mem "goal" (p_sel p) then p_dim p else 0)%nat.
Proof.
  unfold dmp_get. destruct (fas_get (fas_of p)) as [w|]; [|discriminate]. cbn [bind]. intros H L. exists w. split; [reflexivity|].
  assert (E : v = (w ++ (if mem "goal" (p_sel p) then p_attr p else []))%list) by congruence. rewrite E, app_length. f_equal. destruct (mem _ _); [exact L|reflexivity].
Qed.
Lemma trained_usable c data ns a c' : c_train predict_fn train_fn ppf_train c data ns a = Ok c' ->
  exp_goal_fits (c_dmp c) -> selectable_dmp (pdmp_of (c_dmp c')) ->
  exists fs, usable_ctx c' fs.
Proof.
  intros H Hg Hs. destruct (c_train_split _ _ _ _ _ H) as (copies & mL & vL & m' & fs & ppf & FC & NC & EL & IL & E3 & _ & _ & _ & Lp & _ & ->).
  cbn [c_dmp] in Hs. exists ppf. split; [reflexivity|]. cbn [c_dmp].
  assert (exists p, trained_copy (m_select (c_dmp c) ns) p (mL, vL)) as (p & Hp).
  { clear -FC IL. induction FC as [|q y data copies E F IH]; [destruct IL|]. destruct IL as [->|IL]; [now exists q|auto]. }
  destruct (copy_frame _ _ _ _ Hp) as [Ht Hv]. destruct (train_frame _ _ _ Ht) as (_ & D1 & _ & _ & _ & A1 & _ & _ & _ & G1).
  destruct (G1 (select_goal_fits _ ns Hg)) as [G2 _].
  destruct (setup3_frame _ _ _ _ _ E3) as (L0 & L1 & _ & _ & D3 & _ & _ & A3 & F3 & S3 & _ & _ & _ & G3). destruct (G3 G2) as [G4 Sy].
  split; [|now split].
  destruct (dmp_get_size _ Hs) as (v' & Gv & Sv). rewrite Sv. f_equal. rewrite Lp.
  destruct (get_len (pdmp_of m') v' Gv (proj2 Hs)) as (w' & Ew' & L').
  destruct (get_len (pdmp_of mL) vL Hv) as (w & Ew & L). { cbn. congruence. }
  unfold fas_of, pdmp_of in Ew, Ew', L, L'. cbn [p_fas p_sel p_dim] in *. rewrite F3 in Ew'. assert (w' = w) by congruence. rewrite L, L', S3, D3. congruence.
Qed.
Lemma trained_selectable c data ns a c' : c_train predict_fn train_fn ppf_train c data ns a = Ok c' ->
  yields train_fn (fa_names ns) -> match m_fas (c_dmp c) with Some fs => length fs = m_dim (c_dmp c) | None => True end ->
  selectable_dmp (pdmp_of (c_dmp c')).
Proof.
  intros H [Nd Y] Hf. split.
  - destruct (c_train_split _ _ _ _ _ H) as (copies & mL & vL & m' & fs & ppf & FC & NC & EL & IL & E3 & _ & _ & _ & Lp & _ & ->). cbn [c_dmp].
    assert (exists p, trained_copy (m_select (c_dmp c) ns) p (mL, vL)) as (p & Hp).
    { clear -FC IL. induction FC as [|q y data copies E F IH]; [destruct IL|]. destruct IL as [->|IL]; [now exists q|auto]. }
    destruct (copy_frame _ _ _ _ Hp) as [Ht _]. destruct (train_split _ _ _ Ht) as (m3 & amps & fas' & _ & _ & _ & Em & Hfas).
    destruct (setup3_frame _ _ _ _ _ E3) as (_ & _ & _ & _ & _ & _ & _ & _ & F3 & _).
    unfold fas_of, pdmp_of. cbn [p_fas]. rewrite F3, Em. cbn [m_fas upd_ts upd_fas]. rewrite select_fas in Hfas.
    destruct (select_frame (c_dmp c) ns) as (_ & D & _). rewrite D in Hfas.
    destruct (m_fas (c_dmp c)) as [fs0|]; cbn [option_map] in Hfas; [|now rewrite Hfas].
    destruct Hfas as (phs & tg & trained & Lt & -> & _ & Hi). rewrite skipn_all2 by (rewrite map_length; lia). rewrite app_nil_r.
    apply Forall_forall. intros f Hin _. apply In_nth_error in Hin. destruct Hin as [i Hin].
    assert (Hil : (i < length trained)%nat) by (apply nth_error_Some; congruence).
    destruct (nth_error fs0 i) as [f0|] eqn:E0; [|apply nth_error_None in E0; lia].
    destruct (Hi i (fa_select f0 (NList (fa_names ns)))) as (ps & Eps & Etr); [lia|now rewrite nth_error_map, E0|].
    assert (Ef : f = Fa ps (Some 1%nat) (f_sel (fa_select f0 (NList (fa_names ns))))) by congruence. rewrite Ef.
    split; [reflexivity|]. exists (fa_names ns). split; [reflexivity|]. split; [exact Nd|]. apply Forall_forall. intros n Hn. exact (Y _ _ _ _ Eps n Hn).
  - destruct (trained_means _ _ _ _ _ H) as (D & _ & L & _). cbn. congruence.
Qed.

(** ** Task parameters of a demonstration *)
Lemma demo_predictions c data ns a c' fs k q t : c_train predict_fn train_fn ppf_train c data ns a = Ok c' -> c_ppf c' = Some fs ->
  demo_at data k q t -> interpolates ppf_predict ppf_train (map fst data) ->
  exists mk vk, train_copy predict_fn train_fn (m_select (c_dmp c) ns) t = Ok (mk, vk) /\ predicted ppf_predict fs (task q) vk.
Proof.
  intros H Hp Hk Hi. destruct (train_sub _ _ _ _ _ _ _ H Hk) as (mk & vk & Ek). exists mk, vk. split; [exact Ek|].
  destruct (c_train_split _ _ _ _ _ H) as (copies & mL & vL & m' & gs & ppf & FC & NC & EL & IL & E3 & In1 & In2 & _ & Lp & Ht & ->).
  cbn [c_ppf] in Hp. assert (fs = ppf) by congruence. subst fs.
  assert (Hck : nth_error copies k = Some (mk, vk)).
  { clear -FC Hk Ek. unfold demo_at in Hk. revert k Hk. induction FC as [|p y data copies E F IH]; intros [|k] Hk; cbn in Hk; try discriminate.
    - injection Hk as ->. unfold trained_copy in E. cbn [snd] in *. cbn. congruence.
    - cbn. now apply IH. }
  assert (Lv : forall v, In v (map snd copies) -> length v = length vL).
  { intros v Hv. rewrite Forall_forall in In2. rewrite (In2 v Hv). symmetry. apply In2. apply in_map_iff. exists (mL, vL). now split. }
  assert (Hvk : In vk (map snd copies)) by (apply in_map_iff; exists (mk, vk); split; [reflexivity|]; eapply nth_error_In; eauto).
  split; [rewrite Lp; now apply Lv|]. intros i f' Hif.
  assert (Hil : (i < length vL)%nat) by (rewrite <- Lp; apply nth_error_Some; congruence).
  destruct (Ht i Hil) as (f & f2 & _ & E2 & Etr). assert (f2 = f') by congruence. subst f2.
  assert (Lc : length copies = length data) by (symmetry; eapply Forall2_len; eauto).
  assert (Hkl : (k < length data)%nat) by (apply nth_error_Some; unfold demo_at in Hk; congruence).
  pose proof (Hi i f (col i (map snd copies)) f' ltac:(unfold col; rewrite !map_length; exact Lc) Etr k ltac:(now rewrite map_length)) as P.
  assert (Eq : nth k (map fst data) [] = q).
  { apply nth_error_nth. rewrite nth_error_map. unfold demo_at in Hk. now rewrite Hk. }
  rewrite Eq in P. rewrite P. f_equal. f_equal. unfold col. rewrite map_map. apply nth_error_nth. rewrite nth_error_map, Hck. reflexivity.
Qed.
End S.
