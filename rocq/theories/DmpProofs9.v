(** Proofs about DMPs: training. *)
From Coq Require Import String.
From Verif Require Import Base BaseLemmas DynModel DynSpec DynProofs ParamModel TrajModel DmpModel DmpSpec DmpProofs DmpProofs2 DmpProofs3 DmpProofs4 DmpProofs5 DmpProofs6 DmpProofs7.
Open Scope R_scope.

Lemma last_nth {A} (l : list A) d : last l d = nth (length l - 1) l d.
Proof.
  induction l as [|x l IH]; [reflexivity|]. destruct l as [|z l]; [reflexivity|].
  change (last (x :: z :: l) d) with (last (z :: l) d). rewrite IH. cbn. now rewrite Nat.sub_0_r.
Qed.
Lemma last_res_ok {A} (l : list A) d : l <> [] -> last_res l = Ok (last l d).
Proof. intros H. unfold last_res. rewrite last_nth. apply nth_res_ok. destruct l; [congruence|cbn; lia]. Qed.
Lemma last_res_nil {A} : @last_res A [] = Err IndexError.
Proof. reflexivity. Qed.
Lemma nth_col i rows k : nth k (col i rows) 0 = at_ rows k i.
Proof.
  unfold col, at_. destruct (Nat.lt_ge_cases k (length rows)) as [H|H].
  - now rewrite (nth_map_l _ _ _ []).
  - rewrite !nth_overflow with (n := k) by (rewrite ?map_length; trivial). now rewrite nth_overflow by (cbn; lia).
Qed.

Section S.
Variable pf : nat -> list (string * pval) -> R -> res R.

(** the targets do not depend on the function approximators *)
Lemma targets_fas m fs ts t : wf pf m -> wf pf (upd_ts (upd_fas m fs) ts) -> demo (m_dim m) t -> tj_ts t <> [] ->
  targets pf (upd_ts (upd_fas m fs) ts) t = targets pf m t.
Proof.
  intros W W' Dm Hne. destruct (wf_parts _ _ W) as (G & Gd & P & Pd & A & Ad & D & Dd & C & Cd & Q).
  assert (Q' : parts (upd_ts (upd_fas m fs) ts) G Gd P Pd A Ad D Dd C Cd) by (destruct Q; constructor; trivial).
  rewrite (targets_form pf m G Gd P Pd A Ad D Dd C Cd W Q t Dm Hne).
  rewrite (targets_form pf (upd_ts (upd_fas m fs) ts) G Gd P Pd A Ad D Dd C Cd W' Q' t Dm Hne). reflexivity.
Qed.

Lemma range_ok t n : demo n t -> tj_ts t <> [] -> exists a, get_range_per_dim t = Ok a /\ length a = n /\
  let y := at_ (mrows (tj_ys t)) in
  forall i, (i < n)%nat ->
      (exists k l, (k < length (tj_ts t))%nat /\ (l < length (tj_ts t))%nat /\ nth i a 0 = y k i - y l i) /\
      (forall k l, (k < length (tj_ts t))%nat -> (l < length (tj_ts t))%nat -> y k i - y l i <= nth i a 0).
Proof.
  intros (_ & (L & F & Cn) & _) Hne. unfold get_range_per_dim. destruct (mrows (tj_ys t)) as [|r rows] eqn:E.
  { destruct (tj_ts t); [congruence|discriminate]. }
  rewrite Cn. eexists. split; [reflexivity|]. split; [now rewrite map_length, seq_length|]. cbv zeta. intros i Hi.
  rewrite nth_map_seq by trivial.
  assert (Hc : nth i r 0 :: col i rows = col i (r :: rows)) by reflexivity.
  assert (Hin : forall x, In x (nth i r 0 :: col i rows) -> exists k, (k < length (tj_ts t))%nat /\ x = at_ (r :: rows) k i).
  { intros x Hx. rewrite Hc in Hx. destruct (In_nth _ _ 0 Hx) as (k & Hk & <-). unfold col in Hk. rewrite map_length in Hk.
    exists k. split; [now rewrite <- L|apply nth_col]. }
  assert (Hat : forall k, (k < length (tj_ts t))%nat -> In (at_ (r :: rows) k i) (nth i r 0 :: col i rows)).
  { intros k Hk. rewrite Hc, <- nth_col. apply nth_In. unfold col. rewrite map_length. now rewrite L. }
  split.
  - destruct (Hin _ (rmax_list_in (col i rows) (nth i r 0))) as (k & Hk & Ek).
    destruct (Hin _ (rmin_list_in (col i rows) (nth i r 0))) as (l & Hl & El).
    exists k, l. rewrite Ek, El. now repeat split.
  - intros k l Hk Hl.
    assert (U : forall k, (k < length (tj_ts t))%nat -> at_ (r :: rows) k i = nth i r 0 \/ In (at_ (r :: rows) k i) (col i rows)).
    { intros j Hj. destruct (Hat j Hj) as [Hj'|Hj']; [left; now symmetry|now right]. }
    pose proof (rmax_list_ub _ _ _ (U k Hk)). pose proof (rmin_list_lb _ _ _ (U l Hl)). lra.
Qed.

Lemma demo_row n t k : demo n t -> (k < length (tj_ts t))%nat -> nth_res (mrows (tj_ys t)) k = Ok (nth k (mrows (tj_ys t)) []) /\
  length (nth k (mrows (tj_ys t)) []) = n.
Proof.
  intros (_ & (L & F & _) & _) Hk. rewrite (nth_res_ok _ _ []) by lia. split; [reflexivity|].
  rewrite Forall_forall in F. apply F, nth_In. lia.
Qed.

Lemma set_y_kind s y e : sub_set_y_init s y = Ok (SubE e) -> exists e', s = SubE e'.
Proof.
  unfold sub_set_y_init. destruct (set_y_init _ _ _); [|discriminate]. cbn. destruct s; try discriminate. eexists; reflexivity.
Qed.
(** the settings made before the function approximators are trained *)
Lemma train_setup m t : sound pf m -> demo (m_dim m) t -> tj_ts t <> [] -> last (tj_ts t) 0 <> 0 ->
  goal_accepts m (nth 0 (mrows (tj_ys t)) []) ->
  exists m2, wf pf m2 /\ trained_on t (upd_ts m2 (Some (tj_ts t))) /\ m_dim m2 = m_dim m /\ m_fas m2 = m_fas m /\ m_sel m2 = m_sel m /\
    m_req m2 = m_req m /\ m_scaling m2 = m_scaling m /\ m_x_init m2 = m_x_init m /\ keeps_constants m m2 /\
    ((m_req m = false \/ forall e, m_goal m <> Some (SubE e)) -> synced m2) /\ (plain_goal m -> plain_goal m2) /\
    (forall tf, m_train pf tf m t =
      let* m3 := match m_fas m2 with
        | None => Ok m2
        | Some fs =>
          let* pt := targets pf m2 t in
          let* trained :=
            mapM (fun i => let* f := nth_res fs i in
                           let* ps := tf i (fst pt) (col i (snd pt)) in
                           Ok (Fa ps (Some 1%nat) (f_sel f))) (seq 0 (m_dim m2)) in
          Ok (upd_fas m2 (Some (trained ++ skipn (m_dim m2) fs)%list))
        end in
      Ok (upd_ts m3 (Some (tj_ts t)))).
Proof.
  intros S Dm Hne Hl Hg. assert (Hpos : (0 < length (tj_ts t))%nat) by (destruct (tj_ts t); [congruence|cbn; lia]).
  assert (Htau : m_tau m <> 0) by (apply (proj2 S (repeat 0 (m_dim m)) (repeat 0 (m_dim m))); apply repeat_length).
  destruct (set_tau_sound pf m (last (tj_ts t) 0) S Htau Hl) as (m1 & E1 & S1 & T1).
  destruct (demo_row _ t 0 Dm Hpos) as [R0 L0]. destruct (demo_row _ t (length (tj_ts t) - 1) Dm ltac:(lia)) as [RN LN].
  assert (EN : last_res (mrows (tj_ys t)) = Ok (last (mrows (tj_ys t)) []) /\ length (last (mrows (tj_ys t)) []) = m_dim m).
  { pose proof Dm as (_ & (L & _ & _) & _). rewrite last_nth, L. split; [|exact LN]. unfold last_res. rewrite L. exact RN. }
  destruct EN as [EN LN'].
  pose proof E1 as E1'. unfold set_tau in E1'. destruct (Req_EM_T (m_tau m) 0) as [|_]; [congruence|]. 
  apply (f_equal (fun x => match x with Ok y => y | Err _ => m1 end)) in E1'. cbv beta iota in E1'.
  assert (Hd1 : m_dim m1 = m_dim m) by now rewrite <- E1'.
  assert (Hg1 : goal_accepts m1 (nth 0 (mrows (tj_ys t)) [])).
  { rewrite <- E1'. unfold goal_accepts in *. cbn. destruct (m_goal m) as [[e|g|h|h]|]; cbn; exact Hg. }
  destruct (set_y0_sound pf m1 _ S1 ltac:(rewrite Hd1; exact L0) Hg1) as (m2 & E2 & S2 & Y2 & I2 & D2 & T2 & A2).
  destruct (set_yattr_sound pf m2 (last (mrows (tj_ys t)) []) S2 ltac:(rewrite D2, Hd1; exact LN')) as (g & Eg & E3 & S3).
  destruct (range_ok t _ Dm Hne) as (a & Ea & La & Ha).
  assert (F2 : m_fas m2 = m_fas m /\ m_sel m2 = m_sel m /\ m_req m2 = m_req m /\ m_scaling m2 = m_scaling m /\ m_x_init m2 = m_x_init m /\
     (m_goal m = None -> m_goal m2 = None) /\ (forall e, m_goal m2 = Some (SubE e) -> exists e, m_goal m = Some (SubE e))).
  { unfold set_y0 in E2. destruct (Nat.eqb _ _); [|discriminate]. destruct (d_set_y_init _ _); [|discriminate]. cbn [bind] in E2.
    assert (Em1 : m_goal m1 = option_map (fun s => sub_set_tau s (sub_tau s * (last (tj_ts t) 0 / m_tau m))) (m_goal m)) by now rewrite <- E1'.
    destruct (match m_goal m1 with Some g0 => _ | None => _ end) as [gg|] eqn:EG; [|discriminate]. injection E2 as <-. rewrite <- E1'. cbn.
    do 5 (split; [reflexivity|]). rewrite Em1 in EG. destruct (m_goal m) as [s|]; cbn in EG.
    - split; [discriminate|]. intros e He. destruct (m_req m1).
      + injection EG as EG. rewrite He in EG. destruct s; try discriminate. eexists; reflexivity.
      + destruct (sub_set_y_init _ _) as [s'|] eqn:Es in EG; [|discriminate]. cbn in EG. injection EG as EG. rewrite He in EG. injection EG as ->.
        apply set_y_kind in Es. destruct Es as [e' Es]. destruct s; try discriminate. eexists; reflexivity.
    - split; [now injection EG as <-|]. injection EG as <-. discriminate. }
  destruct F2 as (F2 & F3 & F4 & F5 & F6 & F7 & F8).
  assert (KC2 : m_phase m2 = sub_set_tau (m_phase m) (sub_tau (m_phase m) * (last (tj_ts t) 0 / m_tau m)) /\
    m_gating m2 = sub_set_tau (m_gating m) (sub_tau (m_gating m) * (last (tj_ts t) 0 / m_tau m)) /\ m_damping m2 = m_damping m /\
    d_damp (m_spring m2) = d_damp (m_spring m) /\ d_spring (m_spring m2) = d_spring (m_spring m) /\ d_mass (m_spring m2) = d_mass (m_spring m)).
  { unfold set_y0, d_set_y_init in E2. destruct (Nat.eqb _ _); [|discriminate]. destruct (set_y_init _ _ _); [|discriminate]. cbn [bind] in E2.
    destruct (match m_goal m1 with Some g0 => _ | None => _ end) as [gg|]; [|discriminate]. injection E2 as <-. rewrite <- E1'. cbn. auto 8. }
  set (m4 := upd_amps (upd_attr m2 (last (mrows (tj_ys t)) []) g) (Some a)).
  assert (W4 : wf pf m4).
  { pose proof (proj2 S3 (nth 0 (mrows (tj_ys t)) []) a ltac:(cbn; rewrite D2, Hd1; exact L0) ltac:(cbn; rewrite D2, Hd1; exact La)) as W.
    replace m4 with (with_y0_amps (upd_attr m2 (last (mrows (tj_ys t)) []) g) (nth 0 (mrows (tj_ys t)) []) a); [exact W|].
    unfold m4, with_y0_amps, upd_attr, upd_amps. cbn. now rewrite Y2. }
  assert (KC : keeps_constants m m4).
  { destruct KC2 as (K1 & K2 & K3 & K4 & K5 & K6). unfold keeps_constants. cbv zeta. unfold m4. cbn. rewrite T2, T1.
    do 6 (split; [assumption|]). intros Hn. unfold goal_attr in Eg. rewrite (F7 Hn) in Eg. now injection Eg as <-. }
  exists m4. split; [exact W4|]. split; [|split; [cbn; now rewrite D2, Hd1|]].
  - unfold trained_on. cbn. rewrite T2, T1, Y2, I2, D2, Hd1. do 2 (split; [reflexivity|]). split.
    { unfold pad. rewrite L0. do 2 f_equal. lia. }
    do 2 (split; [reflexivity|]). exists a. split; [reflexivity|]. split; [exact La|]. exact Ha.
  - split; [exact F2|]. split; [exact F3|]. split; [exact F4|]. split; [exact F5|]. split; [exact F6|]. split; [|split; [|split]].
    + exact KC.
    + intros Hs. unfold synced. cbn. unfold goal_attr in Eg. destruct (m_goal m2) as [s|] eqn:EG2; [|injection Eg as <-; exact I].
      rewrite F4 in Eg. destruct Hs as [Hs|Hs].
      * rewrite Hs in Eg. destruct s; cbn in Eg; try (injection Eg as <-; exact I).
        destruct (Nat.eqb _ _); [|discriminate]. cbn in Eg. injection Eg as <-. reflexivity.
      * destruct s as [e|s|s|s]; [exfalso; destruct (F8 e eq_refl) as [e' He]; now apply (Hs e')| | |]; cbn in Eg; destruct (m_req m); injection Eg as <-; exact I.
    + unfold plain_goal. cbn. rewrite F4. intros Hp Hn. apply Hp. unfold goal_attr in Eg. destruct (m_goal m2) as [s|] eqn:EG2.
      * exfalso. destruct (m_req m2); [congruence|]. destruct (sub_set_attr s _); [|discriminate]. cbn in Eg. congruence.
      * destruct (m_goal m) eqn:EG; [exfalso|reflexivity].
        unfold set_y0 in E2. destruct (Nat.eqb _ _); [|discriminate]. destruct (d_set_y_init _ _); [|discriminate]. cbn [bind] in E2.
        assert (Em1 : m_goal m1 = option_map (fun s => sub_set_tau s (sub_tau s * (last (tj_ts t) 0 / m_tau m))) (m_goal m)) by (rewrite <- E1', EG; reflexivity).
        rewrite Em1, EG in E2. cbn [option_map] in E2. destruct (m_req m1).
        -- cbn [bind] in E2. injection E2 as <-. discriminate.
        -- destruct (sub_set_y_init _ _) in E2; [|discriminate]. cbn [bind] in E2. injection E2 as <-. discriminate.
    + intros tf. unfold m_train. rewrite (last_res_ok _ 0 Hne). cbn [bind]. rewrite E1. cbn [bind]. rewrite R0. cbn [bind].
      rewrite E2. cbn [bind]. rewrite EN. cbn [bind]. rewrite E3. cbn [bind]. rewrite Ea. cbn [bind]. fold m4. reflexivity.
Qed.

Definition total_fit (tf : nat -> list R -> list R -> res (list (string * pval))) : Prop :=
  forall i phs ys ps, tf i phs ys = Ok ps -> forall ph, exists v, pf i ps ph = Ok v.

Lemma wf_upd_ts m ts : wf pf m -> wf pf (upd_ts m ts).
Proof. exact (fun x => x). Qed.

(** training: what is recorded, and the function approximators *)
Lemma train_ok tf m t m' : total_fit tf -> sound pf m -> demo (m_dim m) t -> last (tj_ts t) 0 <> 0 ->
  goal_accepts m (nth 0 (mrows (tj_ys t)) []) -> m_train pf tf m t = Ok m' ->
  trained_on t m' /\ wf pf m' /\ m_dim m' = m_dim m /\ m_req m' = m_req m /\ m_scaling m' = m_scaling m /\ m_sel m' = m_sel m /\ keeps_constants m m' /\
  ((m_req m = false \/ forall e, m_goal m <> Some (SubE e)) -> synced m') /\ (plain_goal m -> plain_goal m') /\
  match m_fas m with
  | None => m_fas m' = None
  | Some fs => exists phs tg fs', targets pf m' t = Ok (phs, tg) /\ m_fas m' = Some fs' /\ length fs' = length fs /\
      forall i f, nth_error fs i = Some f ->
        if (i <? m_dim m)%nat then exists ps, tf i phs (col i tg) = Ok ps /\ nth_error fs' i = Some (Fa ps (Some 1%nat) (f_sel f))
        else nth_error fs' i = Some f
  end.
Proof.
  intros Tf S Dm Hl Hg Ht.
  assert (Hne : tj_ts t <> []) by (intros E; unfold m_train in Ht; rewrite E, last_res_nil in Ht; discriminate).
  destruct (train_setup m t S Dm Hne Hl Hg) as (m2 & W2 & On & Ed & Ef & Es & Er & Esc & Ex & KC & Sy & Pl & Et).
  rewrite Et in Ht. rewrite <- Ef. destruct (m_fas m2) as [fs|] eqn:EF.
  - destruct (targets pf m2 t) as [[phs tg]|] eqn:ET; [|discriminate]. cbn [bind fst snd] in Ht.
    destruct (mapM _ _) as [trained|] eqn:EM; [|discriminate]. cbn [bind] in Ht. 
    apply (f_equal (fun x => match x with Ok y => y | Err _ => m' end)) in Ht. cbv beta iota in Ht.
    set (fs' := (trained ++ skipn (m_dim m2) fs)%list) in *.
    pose proof (mapM_ok_length _ _ _ EM) as Ltr. rewrite seq_length in Ltr.
    assert (Lfs : (m_dim m2 <= length fs)%nat).
    { destruct (Nat.lt_ge_cases (length fs) (m_dim m2)) as [H|H]; [exfalso|trivial].
      pose proof (mapM_nth _ _ _ EM (length fs) 0%nat (Fa [] None None) ltac:(now rewrite seq_length)) as Hn.
      rewrite seq_nth in Hn by trivial. cbn [Nat.add] in Hn. unfold nth_res in Hn. rewrite (proj2 (nth_error_None fs (length fs))) in Hn by lia. discriminate. }
    assert (Hfs : forall i f, nth_error fs i = Some f -> if (i <? m_dim m2)%nat then exists ps, tf i phs (col i tg) = Ok ps /\ nth_error fs' i = Some (Fa ps (Some 1%nat) (f_sel f))
        else nth_error fs' i = Some f).
    { intros i f Hi. unfold fs'. destruct (Nat.ltb_spec i (m_dim m2)) as [H|H].
      - pose proof (mapM_nth _ _ _ EM i 0%nat (Fa [] None None) ltac:(now rewrite seq_length)) as Hn.
        rewrite seq_nth in Hn by trivial. cbn [Nat.add] in Hn. unfold nth_res in Hn. rewrite Hi in Hn. cbn [bind] in Hn.
        destruct (tf i phs (col i tg)) as [ps|]; [|discriminate]. exists ps. split; [reflexivity|]. cbn [bind] in Hn. injection Hn as Hn.
        rewrite nth_error_app1 by lia. rewrite (nth_error_nth' _ (Fa [] None None)) by lia. now rewrite <- Hn.
      - rewrite nth_error_app2 by lia. rewrite Ltr. rewrite <- (firstn_skipn (m_dim m2) fs) in Hi at 1.
        rewrite nth_error_app2 in Hi by (rewrite firstn_length; lia). rewrite firstn_length_le in Hi by lia. exact Hi. }
    assert (Lfs' : length fs' = length fs) by (unfold fs'; rewrite app_length, skipn_length; lia).
    assert (W' : wf pf (upd_fas m2 (Some fs'))).
    { destruct W2 as (A1 & A2 & A3 & A4 & A5 & A6 & A7 & A8 & A9 & A10 & A11 & A12 & A13 & A14 & A15 & A16 & A17 & A18 & A19).
      unfold wf. cbv zeta. do 18 (split; [assumption|]). unfold fas_ok. cbn [upd_fas m_fas m_dim]. split; [right; lia|]. intros i f Hi Hit ph.
      assert (Hif : (i < length fs)%nat) by (rewrite <- Lfs'; apply nth_error_Some; congruence).
      destruct (nth_error fs i) as [f0|] eqn:E0; [|apply nth_error_None in E0; lia].
      pose proof (Hfs i f0 E0) as H. destruct (Nat.ltb_spec i (m_dim m2)) as [Hi2|Hi2].
      - destruct H as (ps & H1 & H2). rewrite H2 in Hi. injection Hi as <-. cbn. eapply Tf, H1.
      - rewrite H in Hi. injection Hi as <-. unfold fas_ok in A19. rewrite EF in A19. eapply (proj2 A19), Hit. exact E0. }
    rewrite <- Ht. split; [exact On|]. split; [exact W'|]. split; [exact Ed|]. split; [exact Er|]. split; [exact Esc|]. split; [exact Es|]. split; [exact KC|].
    split; [exact Sy|]. split; [exact Pl|]. exists phs, tg, fs'.
    split. { rewrite targets_fas; trivial. now rewrite Ed. }
    split; [reflexivity|]. split; [exact Lfs'|]. rewrite <- Ed. exact Hfs.
  - cbn [bind] in Ht. apply (f_equal (fun x => match x with Ok y => y | Err _ => m' end)) in Ht. cbv beta iota in Ht. rewrite <- Ht.
    split; [exact On|]. split; [exact W2|]. split; [exact Ed|]. split; [exact Er|]. split; [exact Esc|]. split; [exact Es|]. split; [exact KC|].
    split; [exact Sy|]. split; [exact Pl|]. exact EF.
Qed.

(** training succeeds if the gating and the scaling factors are not zero *)
Lemma targets_total m t r : wf pf m -> demo (m_dim m) t -> tj_ts t <> [] -> ana pf m (tj_ts t) false = Ok r ->
  (forall k, (k < length (tj_ts t))%nat -> av (m_dim m) (a_xs r) k <> 0) -> (forall i, (i < m_dim m)%nat -> factor m i <> 0) ->
  exists phs tg, targets pf m t = Ok (phs, tg).
Proof.
  intros W Dm Hne Er Hga Hfac. set (n := m_dim m) in *.
  destruct (wf_parts _ _ W) as (G & Gd & P & Pd & A & Ad & D & Dd & C & Cd & Q).
  rewrite (targets_form pf m G Gd P Pd A Ad D Dd C Cd W Q t Dm Hne).
  assert (H : forall k, In k (seq 0 (length (tj_ts t))) -> exists row, tbody m G A C t k = Ok row).
  { intros k Hk. apply in_seq in Hk. assert (Hlt : (k < length (tj_ts t))%nat) by lia. unfold tbody.
    destruct Dm as (Dd' & DY & DV & DA).
    destruct (row_of m t (tj_ys t) k DY Hlt) as (ry & Ey & Ly & Ny). rewrite Ey. cbn [bind].
    destruct (row_of m t (tj_yds t) k DV Hlt) as (rv & Ev & Lv & Nv). rewrite Ev. cbn [bind].
    destruct (row_of m t (tj_ydds t) k DA Hlt) as (ra & Ea & La & Na). rewrite Ea. cbn [bind].
    rewrite (nth_res_ok _ _ []) by now rewrite map_length. cbn [bind].
    rewrite (nth_res_ok _ _ 0) by now rewrite map_length. cbn [bind].
    rewrite (nth_res_ok _ _ []) by now rewrite map_length. cbn [bind].
    rewrite !(nth_map_l _ (tj_ts t) k 0) by trivial. fold (time t k).
    rewrite (vop_seq _ _ _ n) by (trivial; apply tgt_length). cbn [bind].
    rewrite (pop_par _ _ n) by (first [now rewrite map_length, seq_length | apply W]). cbn [bind].
    assert (PD : par_ok match m_damping m with Some _ => PVec (C (time t k)) | None => d_damp (m_spring m) end n).
    { destruct (m_damping m); [exact (C_len m _ _ _ _ _ _ _ _ _ _ Q (time t k))|apply W]. }
    rewrite (pop_par _ _ n) by (first [exact PD | now rewrite map_length]). cbn [bind].
    rewrite (vop_seq _ _ _ n) by now rewrite map_length, seq_length. cbn [bind].
    rewrite map_length, seq_length. rewrite full_ok by apply W. cbn [bind].
    rewrite (div_row_ok n).
    2,3: now rewrite map_length, seq_length.
    2:{ intros i Hi. rewrite nth_map_seq by trivial. now apply W. }
    cbn [bind]. rewrite (vop_seq _ _ _ n) by (rewrite ?map_length, ?seq_length; trivial). cbn [bind].
    destruct (Req_EM_T (nth 0 (A (time t k)) 0) 0) as [Hz|_].
    { exfalso. apply (Hga k Hlt). destruct (tj_ts t) as [|t0 ts] eqn:ET; [congruence|].
      rewrite (ana_eq pf m G Gd P Pd A Ad D Dd C Cd W Q false t0 ts) in Er.
      apply (f_equal (fun x => match x with Ok y => y | Err _ => r end)) in Er. cbv beta iota in Er. rewrite <- Er. cbn [a_xs].
      set (L := (t0, d_init (m_spring m)) :: states pf m G P A C false t0 (d_init (m_spring m)) ts).
      assert (Hx : length (snd (nth k L (0, []))) = (2 * m_dim m)%nat) by (apply (L_len pf m G P A C W false t0 ts k Hlt)).
      pose proof (nth_asm _ _ _ _ _ _ (xr_layout m G Gd P Pd A Ad D Dd C Cd Q _ Hx)) as (_ & _ & _ & _ & N5 & _).
      assert (HL : (k < length L)%nat) by (unfold L; rewrite (L_length pf m G P A C false t0 ts); exact Hlt).
      assert (Et : fst (nth k L (0, [])) = nth k (t0 :: ts) 0) by (apply (L_time pf m G P A C false t0 ts k Hlt)).
      unfold av. rewrite (at_map _ _ _ _ (0, [])) by exact HL. unfold xrow. unfold n. rewrite N5, Et. unfold time in Hz. now rewrite ET in Hz. }
    rewrite (div_row_ok n).
    2,3: now rewrite ?map_length, seq_length.
    2:{ intros i Hi. rewrite nth_map_seq by trivial. now apply Hfac. }
    eexists; reflexivity. }
  assert (HM : exists rows, mapM (tbody m G A C t) (seq 0 (length (tj_ts t))) = Ok rows).
  { clear -H. revert H. generalize (seq 0 (length (tj_ts t))) as l. induction l as [|k l IH]; intros H; [now exists []|].
    destruct (H k ltac:(now left)) as [row Ek]. destruct IH as [rows Er]; [intros j Hj; apply H; now right|].
    exists (row :: rows). cbn. now rewrite Ek, Er. }
  destruct HM as [rows ->]. cbn [bind]. eexists _, _. reflexivity.
Qed.
(** training succeeds with every demonstration if the gating is never zero and forcing terms are not
    scaled *)
Lemma train_total tf m t : total_fit tf -> (forall i phs ys, exists ps, tf i phs ys = Ok ps) ->
  sound pf m -> demo (m_dim m) t -> tj_ts t <> [] -> last (tj_ts t) 0 <> 0 ->
  goal_accepts m (nth 0 (mrows (tj_ys t)) []) -> m_scaling m = NoScaling ->
  (forall fs, m_fas m = Some fs -> (m_dim m <= length fs)%nat) ->
  (forall c ts xs xds k, c <> 0 -> sub_ana (sub_set_tau (m_gating m) c) ts = Ok (xs, xds) -> (k < length ts)%nat -> at_ xs k 0 <> 0) ->
  exists m', m_train pf tf m t = Ok m'.
Proof.
  intros Tf Tt S Dm Hne Hl Hg Hs Hf Hga.
  destruct (train_setup m t S Dm Hne Hl Hg) as (m2 & W2 & On & Ed & Ef & Es & Er & Esc & Ex & KC & Sy & Pl & Et).
  rewrite Et. destruct (m_fas m2) as [fs|] eqn:EF; [|eexists; reflexivity]. rewrite <- Ef in Hf. specialize (Hf fs eq_refl). rewrite <- Ed in Hf.
  destruct (ana_total pf m2 (tj_ts t) false W2 Hne) as (r & Ea & Sp).
  assert (Htau : m_tau m <> 0) by (apply (proj2 S (repeat 0 (m_dim m)) (repeat 0 (m_dim m))); apply repeat_length).
  destruct (targets_total m2 t r W2 ltac:(now rewrite Ed) Hne Ea) as (phs & tg & Etg).
  - destruct Sp as (_ & _ & _ & _ & _ & _ & (ps & pds & Eg & Hgk) & _). intros k Hk. rewrite (proj1 (Hgk k Hk)).
    destruct KC as (_ & K2 & _). rewrite K2 in Eg. refine (Hga _ _ _ _ k _ Eg Hk).
    pose proof W2 as (Ht2 & _).
    assert (Hs0 : sub_tau (m_gating m) <> 0).
    { destruct S as [_ S1]. specialize (S1 (repeat 0 (m_dim m)) (repeat 0 (m_dim m)) (repeat_length _ _) (repeat_length _ _)).
      destruct S1 as (_ & _ & _ & _ & _ & _ & _ & _ & _ & _ & _ & _ & _ & _ & _ & _ & [S1 _] & _). exact S1. }
    unfold Rdiv. repeat apply Rmult_integral_contrapositive_currified; trivial. now apply Rinv_neq_0_compat.
  - intros i Hi. unfold factor. rewrite Esc, Hs. lra.
  - rewrite Etg. cbn [bind fst snd].
    assert (HM : exists l, mapM (fun i => let* f := nth_res fs i in let* ps := tf i phs (col i tg) in Ok (Fa ps (Some 1%nat) (f_sel f))) (seq 0 (m_dim m2)) = Ok l).
    { assert (H : forall i, In i (seq 0 (m_dim m2)) -> exists f, (let* f := nth_res fs i in let* ps := tf i phs (col i tg) in Ok (Fa ps (Some 1%nat) (f_sel f))) = Ok f).
      { intros i Hi. apply in_seq in Hi. rewrite (nth_res_ok _ _ (Fa [] None None)) by lia. cbn [bind]. destruct (Tt i phs (col i tg)) as [ps ->]. eexists; reflexivity. }
      revert H. generalize (seq 0 (m_dim m2)) as l. induction l as [|k l IH]; intros H; [now exists []|].
      destruct (H k ltac:(now left)) as [x Ek]. destruct IH as [rows Er']; [intros j Hj; apply H; now right|].
      exists (x :: rows). cbn. cbn in Ek. now rewrite Ek, Er'. }
    destruct HM as [l ->]. eexists; reflexivity.
Qed.
End S.
