(** Proofs: DMPs trained with images of demonstrations. *)
From Coq Require Import String.
From Verif Require Import Base BaseLemmas DynModel DynSpec DynProofs DynProofs2 ParamModel FaModel FaSpec FaProofs FaProofs7 FaProofs8 TrajModel TrajSpec DmpModel DmpSpec DmpProofs DmpProofs2 DmpProofs3 DmpProofs5 DmpProofs6 DmpProofs7 DmpProofs9 DmpProofs13 DmpProofs14 DmpProofs18
  CppModel CppSpec CppProofs CppProofs2 CppProofs3 CppProofs5 CppProofs6 CppProofs7 CppProofs8 TaskModel TaskProofs2 ViaProofs5 AffineSpec AffineProofs AffineProofs3.
Open Scope string_scope.
Open Scope R_scope.

(** ** a movement as a trajectory *)
Lemma combine_nth_map (l : list R) g : combine l (map g (seq 0 (length l))) = map (fun k => (nth k l 0, g k)) (seq 0 (length l)) :> list (R * (list R * list R * list R)).
Proof.
  assert (G : forall (l : list R) j g, combine l (map g (seq j (length l))) = map (fun k => (nth (k - j) l 0, g k)) (seq j (length l)) :> list (R * (list R * list R * list R))).
  { clear. induction l as [|a l IH]; intros j g; [reflexivity|]. cbn [length seq map combine]. rewrite IH, Nat.sub_diag. cbn [nth]. f_equal.
    apply map_ext_in. intros k Hk. apply in_seq in Hk. replace (k - j)%nat with (S (k - S j)) by lia. reflexivity. }
  rewrite G. apply map_ext. intros k. now rewrite Nat.sub_0_r.
Qed.
Lemma movement_ok pf m ts : wf pf m -> ts <> [] -> exists q r, movement pf m ts = Ok q /\ ana pf m ts false = Ok r /\ rollout_spec pf m ts false r /\ demo (m_dim m) q /\ tj_ts q = ts /\
  forall k i, (k < length ts)%nat -> (i < m_dim m)%nat ->
    at_ (mrows (tj_ys q)) k i = yv (a_xs r) k i /\ at_ (mrows (tj_yds q)) k i = zv (m_dim m) (a_xs r) k i / m_tau m /\
    at_ (mrows (tj_ydds q)) k i = zv (m_dim m) (a_xds r) k i / m_tau m.
Proof.
  intros W Hne. destruct (ana_total pf m ts false W Hne) as (r & Er & Sp).
  destruct (as_traj_ok (m_dim m) ts (yv (a_xs r)) (yv (a_xds r)) (fun j i => zv (m_dim m) (a_xds r) j i / m_tau m)) as (q & Eq & C & T1 & T2 & _ & T4).
  exists q, r. split. { unfold movement. rewrite Er. cbn [bind]. rewrite (states_rows pf m ts false r W Er). cbn [bind]. rewrite combine_nth_map. exact Eq. }
  split; [exact Er|]. split; [exact Sp|]. split.
  { destruct C as ((A1 & A2 & A3) & (B1 & B2 & B3) & (C1 & C2 & C3) & _). rewrite T2 in *. unfold demo. rewrite T2. split; [reflexivity|].
    repeat split; trivial; apply Forall_forall; assumption. }
  split; [exact T1|]. intros k i Hk Hi. destruct (T4 k i Hk Hi) as (E1 & E2 & E3). unfold at2 in E1, E2, E3. unfold at_. rewrite E1, E2, E3.
  destruct Sp as (_ & _ & _ & _ & _ & _ & _ & _ & _ & _ & _ & D & _). destruct (D k i Hk Hi) as [D1 _]. split; [reflexivity|]. split; [exact D1|reflexivity].
Qed.

Section Train.
Variable kinds : nat -> fa_kind.
Variable ns : nat -> nat.
Variables h lam : nat -> R.
Hypothesis Hk : forall i, kinds i <> KOther.
Hypothesis Hn : forall i, (0 < ns i)%nat.
Hypothesis Hh : forall i, 0 < h i < 1.
Hypothesis Hlam : forall i, 0 < lam i.
Notation pf := (py_predict exp kinds).
Notation tf := (trainer kinds ns h lam).
Notation sf := (safe kinds ns h lam).
Let Hlam0 : forall i, 0 <= lam i. Proof. intros i. specialize (Hlam i). lra. Qed.

(** what a DMP trained with a demonstration consists of *)
Lemma trained_facts ty t fas kw : ty = Kulvicius \/ ty = Countdown -> plain_kw kw -> opt (k_scaling kw) NoScaling = NoScaling ->
  demo (tj_dim t) t -> 0 < last (tj_ts t) 0 -> hd 0 (tj_ts t) < last (tj_ts t) 0 ->
  (tj_dim t <= length fas)%nat -> Forall (fun f => is_trained f = false) fas ->
  exists m, from_traj pf tf ty t (Some fas) kw = Ok m /\ wf pf m /\ m_dim m = tj_dim t /\
    let tau := last (tj_ts t) 0 in let y0 := nth 0 (mrows (tj_ys t)) [] in let yN := last (mrows (tj_ys t)) [] in
    length y0 = tj_dim t /\ length yN = tj_dim t /\
    m_tau m = tau /\ m_phase m = SubT (new_time tau (match ty with Countdown => true | _ => false end)) /\
    (exists s, for_gating tau 0.1 1 = Ok s /\ m_gating m = sub_set_tau (SubS s) tau) /\
    m_damping m = None /\ m_req m = false /\ m_scaling m = NoScaling /\ m_attr m = yN /\
    (exists d, opt (k_alpha kw) (PScal 20) = PScal d /\ d_damp (m_spring m) = PScal d /\ d_spring (m_spring m) = PScal (d * d / 4)) /\ d_mass (m_spring m) = PScal 1 /\
    m_goal m = Some (SubE (Esys tau y0 yN (PScal 15))) /\ d_init (m_spring m) = (y0 ++ repeat 0 (tj_dim t))%list /\
    exists phs tg fs, targets pf m t = Ok (phs, tg) /\ m_fas m = Some fs /\
      forall i, (i < tj_dim t)%nat -> exists ps sel, sf i phs (col i tg) = Ok ps /\ nth_error fs i = Some (Fa ps (Some 1%nat) sel).
Proof.
  intros Hty Kw Ksc Dm Hl Hlt Hf Hu.
  destruct (from_traj_ok kinds ns h lam Hk Hn Hh Hlam ty t fas kw Hty Kw Ksc Dm Hl Hlt Hf Hu) as [m E0']. exists m. split; [exact E0'|].
  pose proof (from_traj_scaling pf tf ty t fas kw m E0') as Scm. rewrite Ksc in Scm.
  pose proof E0' as E. destruct Kw as (K1 & K2 & K3 & K4 & K5 & d & K6).
  assert (Hne : tj_ts t <> []) by (intros Z; rewrite Z in Hl; cbn in Hl; lra).
  assert (Hpos : (0 < length (tj_ts t))%nat) by (destruct (tj_ts t); [congruence|cbn; lia]).
  unfold from_traj in E. rewrite (last_res_ok _ 0 Hne) in E. cbn [bind] in E.
  destruct (demo_row _ t 0 Dm Hpos) as [R0 L0]. rewrite R0 in E. cbn [bind] in E.
  destruct (demo_row _ t (length (tj_ts t) - 1) Dm ltac:(lia)) as [RN LN].
  assert (EN : last_res (mrows (tj_ys t)) = Ok (last (mrows (tj_ys t)) []) /\ length (last (mrows (tj_ys t)) []) = tj_dim t).
  { pose proof Dm as (_ & (L & _ & _) & _). rewrite last_nth, L. split; [|exact LN]. unfold last_res. rewrite L. exact RN. }
  destruct EN as [EN LN']. rewrite EN in E. cbn [bind] in E. cbv zeta.
  set (y0 := nth 0 (mrows (tj_ys t)) []) in *. set (yN := last (mrows (tj_ys t)) []) in *. set (tau := last (tj_ts t) 0) in *.
  destruct (new_dmp_ok pf ty tau y0 yN (Some fas) kw Hl ltac:(congruence)) as (m0 & E0 & S0 & _ & _ & D0 & T0 & A0 & _ & F0 & R0' & Sc0 & _ & _ & M0 & Sp0 & Da0 & G0).
  { unfold full_kw. rewrite K6. do 5 (split; [trivial|]). exact I. }
  { unfold distinct_for. destruct Hty as [-> | ->]; exact I. }
  { split; [right; now rewrite L0|]. intros i f Hi Hit. exfalso. rewrite Forall_forall in Hu. apply nth_error_In in Hi. apply Hu in Hi. congruence. }
  rewrite E0 in E. cbn [bind] in E. rewrite L0 in D0.
  destruct (for_gating_ok tau 0.1 1 Hl ltac:(lra)) as (s & Es & Ei & Ets & rt & inf & Ers & Eqs & _).
  unfold new_dmp in E0. rewrite K1, K2, K3, K4, K5, K6 in E0. cbn [opt] in E0.
  assert (DS : default_subs ty tau y0 yN (new_spring tau y0 yN (PScal d) None (PScal 1)) =
    Ok (Some (SubE (Esys tau y0 yN (PScal 15))), SubS s, SubT (new_time tau (match ty with Countdown => true | _ => false end)), None)).
  { unfold default_subs. destruct Hty as [-> | ->]; rewrite Es; reflexivity. }
  rewrite DS in E0. cbn [bind] in E0. clear DS.
  match type of E0 with Ok ?M = _ => assert (Em0 : m0 = M) by congruence end. clear E0.
  assert (P0 : m_phase m0 = SubT (new_time tau (match ty with Countdown => true | _ => false end))) by (rewrite Em0; reflexivity).
  assert (Q0 : m_gating m0 = SubS s) by (rewrite Em0; reflexivity).
  assert (Gm0 : m_goal m0 = Some (SubE (Esys tau y0 yN (PScal 15)))) by (rewrite Em0; reflexivity).
  assert (Dm0 : m_damping m0 = None) by (rewrite Em0; reflexivity).
  assert (Req0 : m_req m0 = false) by (rewrite R0'; destruct Hty as [-> | ->]; reflexivity).
  clear Em0.
  assert (Dm' : demo (m_dim m0) t) by now rewrite D0.
  assert (Ga : goal_accepts m0 y0) by (right; now rewrite Gm0).
  destruct (train_goal pf tf m0 t m _ _ _ _ Gm0 Req0 E) as (y1 & Ey1 & Eg1 & Edy).
  apply (train_safe kinds ns h lam) in E; trivial.
  2:{ rewrite P0, T0. unfold new_time. eexists _, _. reflexivity. }
  destruct (train_ok pf sf m0 t m (safe_total kinds ns h lam Hn Hh Hlam0) S0 Dm' ltac:(fold tau; lra) Ga E) as (On & W & D1 & Rq & Sc & _ & KC & _ & _ & Fa).
  rewrite F0 in Fa. destruct Fa as (phs & tg & fs' & Etg & Ef' & Lf' & Hfs).
  destruct On as (T1 & Y1 & I1 & At1 & _ & am & Eam & Lam & _). fold tau y0 yN in T1, Y1, I1, At1.
  destruct KC as (C1 & C2 & C3 & C4 & C5 & C6 & _). rewrite P0, T0, T1 in C1. rewrite Q0, T0, T1 in C2. rewrite T0, T1 in Eg1.
  assert (Tt : tau * (tau / tau) = tau) by (field; lra).
  cbn [sub_set_tau sub_tau t_tau new_time] in C1. cbn [sub_tau] in C2. rewrite Ets in C2. rewrite Tt in C1, C2, Eg1.
  assert (y1 = y0) by congruence. subst y1. rewrite At1 in Eg1. rewrite D0 in D1.
  split; [exact W|]. split; [exact D1|]. split; [exact L0|]. split; [exact LN'|]. split; [exact T1|]. split; [exact C1|]. split; [exists s; auto|].
  split; [congruence|]. split; [congruence|]. split; [exact Scm|]. split; [exact At1|].
  split. { exists d. split; [exact K6|]. rewrite C4, C5, Sp0, Da0, K6. now split. }
  split; [congruence|]. split; [exact Eg1|]. split; [now rewrite I1, D1|].
  exists phs, tg, fs'. split; [exact Etg|]. split; [exact Ef'|]. intros i Hi.
  destruct (nth_error fas i) as [f0|] eqn:Ef0.
  2:{ apply nth_error_None in Ef0. lia. }
  specialize (Hfs i f0 Ef0). rewrite D0 in Hfs. destruct (Nat.ltb_spec i (tj_dim t)) as [_|?]; [|lia]. destruct Hfs as (ps & Eps & Enf). eauto.
Qed.

(** ** predictions of approximators trained with combined targets *)
Lemma trainer_comb n a i Y ys P ps phs ph : (forall j, (j < n)%nat -> a j <> 0 -> kinds j = kinds i /\ ns j = ns i /\ h j = h i /\ lam j = lam i) ->
  combination n a Y ys -> differ phs = true -> length ys = length phs ->
  (forall j, (j < n)%nat -> tf j phs (Y j) = Ok (P j)) -> tf i phs ys = Ok ps ->
  exists v V, pf i ps ph = Ok v /\ (forall j, (j < n)%nat -> pf j (P j) ph = Ok (V j)) /\ v = sumn n (fun j => a j * V j).
Proof.
  intros Ha Cb D L EP E. pose proof D as D'. apply differ_ok in D'. destruct D' as (u1 & u2 & H1 & H2 & N12). pose proof Cb as [LY CY].
  set (xs := map (fun v => [v]) phs).
  assert (Sx : FaSpec.samples 1 xs) by (split; [unfold xs; destruct phs; [contradiction|discriminate]|unfold xs; apply Forall_map, Forall_forall; reflexivity]).
  assert (Lx : length ys = length xs) by (unfold xs; now rewrite map_length).
  assert (Pd : per_dim 1 [ns i]) by (split; [reflexivity|repeat constructor; apply Hn]).
  assert (Sp : spread 1 xs [ns i]) by (apply CppProofs6.spread_one; left; eauto).
  (* targets of dimensions that do not count are replaced *)
  set (Y' := fun j => if Req_EM_T (a j) 0 then ys else Y j).
  set (P' := fun j => if Req_EM_T (a j) 0 then ps else P j).
  assert (Cb' : combination n a Y' ys).
  { split; [intros j Hj; unfold Y'; destruct (Req_EM_T (a j) 0); [reflexivity|now apply LY]|]. intros k Hkk. rewrite CY by exact Hkk. apply sumn_ext. intros j Hj.
    unfold Y'. destruct (Req_EM_T (a j) 0) as [->|]; [ring|reflexivity]. }
  assert (EP' : forall j, (j < n)%nat -> tf i phs (Y' j) = Ok (P' j)).
  { intros j Hj. unfold Y', P'. destruct (Req_EM_T (a j) 0) as [|Na]; [exact E|]. specialize (EP j Hj). unfold trainer in EP |- *.
    destruct (Ha j Hj Na) as (A1 & A2 & A3 & A4). now rewrite A1, A2, A3, A4 in EP. }
  assert (TP : forall j v q, tf j phs v = Ok q -> length v = length phs -> exists w, pf j q ph = Ok w).
  { intros j v q Eq Lv. apply (safe_total kinds ns h lam Hn Hh Hlam0 j phs v q). unfold safe. now rewrite D, Lv, Nat.eqb_refl. }
  assert (Main : exists v V, pf i ps ph = Ok v /\ (forall j, (j < n)%nat -> pf i (P' j) ph = Ok (V j)) /\ v = sumn n (fun j => a j * V j)).
  { assert (HX : Forall (fun r : list R => length r = 1%nat) [[ph]]) by (repeat constructor).
    unfold trainer in E, EP'. fold xs in E, EP'. unfold py_predict. pose proof (Hk i) as Hki.
    assert (One : forall V (vs : list R), combination n a V vs -> length vs = 1%nat -> one vs = Ok (nth 0 vs 0) /\ (forall j, (j < n)%nat -> one (V j) = Ok (nth 0 (V j) 0)) /\
       nth 0 vs 0 = sumn n (fun j => a j * nth 0 (V j) 0)).
    { intros V vs [LV CV] Lvs. split; [destruct vs as [|? [|]]; try discriminate; reflexivity|]. split; [|apply CV; lia]. intros j Hj. specialize (LV j Hj).
      destruct (V j) as [|? [|]]; cbn in *; try lia; reflexivity. }
    destruct (kinds i) eqn:Eki; [| |congruence].
    - destruct (rbfn_linear 1 xs [ns i] (h i) (lam i) Sx ltac:(lia) Pd Sp (Hh i) n a Y' ys P' ps [[ph]] Cb' Lx HX EP' E) as (V & vs & EV & Ev & Cv).
      assert (Lvs : length vs = 1%nat).
      { destruct (TP i ys ps) as [w Ew]; [unfold trainer; rewrite Eki; exact E|exact L|]. unfold py_predict in Ew. rewrite Eki, Ev in Ew. cbn [bind] in Ew. destruct vs as [|? [|]]; try discriminate. reflexivity. }
      destruct (One V vs Cv Lvs) as (O1 & O2 & O3). exists (nth 0 vs 0), (fun j => nth 0 (V j) 0). rewrite Ev. split; [exact O1|]. split; [|exact O3].
      intros j Hj. rewrite (EV j Hj). cbn [bind]. now apply O2.
    - destruct (lwr_linear 1 xs [ns i] (h i) (lam i) Sx ltac:(lia) Pd Sp (Hh i) n a Y' ys P' ps [[ph]] Cb' Lx HX EP' E) as (V & vs & EV & Ev & Cv).
      assert (Lvs : length vs = 1%nat).
      { destruct (TP i ys ps) as [w Ew]; [unfold trainer; rewrite Eki; exact E|exact L|]. unfold py_predict in Ew. rewrite Eki, Ev in Ew. cbn [bind] in Ew. destruct vs as [|? [|]]; try discriminate. reflexivity. }
      destruct (One V vs Cv Lvs) as (O1 & O2 & O3). exists (nth 0 vs 0), (fun j => nth 0 (V j) 0). rewrite Ev. split; [exact O1|]. split; [|exact O3].
      intros j Hj. rewrite (EV j Hj). cbn [bind]. now apply O2. }
  destruct Main as (v & V & M1 & M2 & M3). exists v, (fun j => match pf j (P j) ph with Ok w => w | Err _ => 0 end). split; [exact M1|]. split.
  - intros j Hj. destruct (TP j (Y j) (P j) (EP j Hj)) as [w Ew]; [rewrite LY by exact Hj; exact L|]. now rewrite Ew.
  - rewrite M3. apply sumn_ext. intros j Hj. destruct (Req_EM_T (a j) 0) as [->|Na]; [ring|]. f_equal.
    specialize (M2 j Hj). unfold P' in M2. destruct (Req_EM_T (a j) 0); [contradiction|]. unfold py_predict in M2 |- *. destruct (Ha j Hj Na) as (-> & _). now rewrite M2.
Qed.

(** ** images of demonstrations *)
Lemma image_learned A b n n' ty t t' fas fas' kw : ty = Kulvicius \/ ty = Countdown -> plain_kw kw -> opt (k_scaling kw) NoScaling = NoScaling ->
  image_traj A b n n' t t' -> same_settings A n n' kinds ns h lam ->
  0 < last (tj_ts t) 0 -> hd 0 (tj_ts t) < last (tj_ts t) 0 ->
  (n <= length fas)%nat -> Forall (fun f => is_trained f = false) fas -> (n' <= length fas')%nat -> Forall (fun f => is_trained f = false) fas' ->
  exists m m', from_traj pf tf ty t (Some fas) kw = Ok m /\ from_traj pf tf ty t' (Some fas') kw = Ok m' /\
    forall ts, ts <> [] -> exists q q', movement pf m ts = Ok q /\ movement pf m' ts = Ok q' /\ image_traj A b n n' q q' /\ tj_ts q = ts.
Proof.
  intros Hty Kw Ksc It Ss Hl Hlt Hf Hu Hf' Hu'. pose proof It as (Dm & Dm' & Et & Hm).
  assert (Dn : tj_dim t = n) by apply Dm. assert (Dn' : tj_dim t' = n') by apply Dm'.
  assert (Hne : tj_ts t <> []) by (intros Z; rewrite Z in Hl; cbn in Hl; lra).
  assert (Hpos : (0 < length (tj_ts t))%nat) by (destruct (tj_ts t); [congruence|cbn; lia]).
  destruct (trained_facts ty t fas kw Hty Kw Ksc) as (m & Em & W & D & F); trivial; try (rewrite Dn; trivial).
  destruct (trained_facts ty t' fas' kw Hty Kw Ksc) as (m' & Em' & W' & D' & F'); trivial; try (rewrite Dn'; trivial); try (rewrite Et; trivial).
  exists m, m'. split; [exact Em|]. split; [exact Em'|]. cbv zeta in F, F'. rewrite Et in F'. rewrite Dn in *. rewrite Dn' in *.
  destruct F as (Ly & LN & F1 & F2 & (s & Es & F3) & F4 & F5 & F6 & F7 & (d & F8 & F9 & F10) & F11 & F12 & F13 & phs & tg & fs & F14 & F15 & F16).
  destruct F' as (Ly' & LN' & G1 & G2 & (s' & Es' & G3) & G4 & G5 & G6 & G7 & (d' & G8 & G9 & G10) & G11 & G12 & G13 & phs' & tg' & fs' & G14 & G15 & G16).
  set (tau := last (tj_ts t) 0) in *. set (y0 := nth 0 (mrows (tj_ys t)) []) in *. set (yN := last (mrows (tj_ys t)) []) in *.
  set (y0' := nth 0 (mrows (tj_ys t')) []) in *. set (yN' := last (mrows (tj_ys t')) []) in *.
  assert (Iy : forall i, (i < n')%nat -> nth i y0' 0 = image A b n (fun j => nth j y0 0) i) by (intros i Hi; exact (proj1 (Hm 0%nat i Hpos Hi))).
  assert (IN : forall i, (i < n')%nat -> nth i yN' 0 = image A b n (fun j => nth j yN 0) i).
  { intros i Hi. pose proof (proj1 (Hm (length (tj_ts t) - 1)%nat i ltac:(lia) Hi)) as Q. unfold at_ in Q. unfold yN, yN'. rewrite !last_nth.
    destruct Dm as (_ & (L1 & _) & _). destruct Dm' as (_ & (L2 & _) & _). rewrite L1, L2, Et. exact Q. }
  assert (K : linked A b n n' m m').
  { constructor; trivial; try congruence.
    - exists d, (d * d / 4), 1. assert (d' = d) by congruence. subst d'. auto 6.
    - intros i Hi. rewrite F7, G7. now apply IN.
    - right. exists tau, y0, yN, y0', yN', 15. do 2 (split; [trivial|]). split; [lra|]. do 4 (split; [trivial|]). intros i Hi. split; [now apply Iy|now apply IN].
    - intros i Hi. rewrite F13, G13. split.
      + rewrite app_nth1 by lia. rewrite Iy by exact Hi. apply img_ext. intros j Hj. now rewrite app_nth1 by lia.
      + rewrite app_nth2 by lia. replace (n' + i - length y0')%nat with i by lia. rewrite nth_repeat. symmetry.
        transitivity (image A no_shift n (fun _ => 0) i); [apply lin_ext; intros j Hj; rewrite app_nth2 by lia; apply nth_repeat|].
        unfold image, no_shift. rewrite sumn_zero by (intros; ring). ring. }
  destruct (targets_image A b n n' pf m m' t t' phs tg phs' tg' K W W' It Hne F14 G14) as (-> & Lp & Lt & Lt' & Ht).
  assert (Df : differ phs = true).
  { destruct (phases_differ kinds m t phs tg) as [Q _]; trivial; try (rewrite F1; trivial); [now rewrite D|]. eexists _, _. rewrite F2. reflexivity. }
  assert (Cl : forall l j, length (col j l) = length l) by (intros; unfold col; apply map_length).
  assert (Nc : forall l j k, (k < length l)%nat -> nth k (col j l) 0 = at_ l k j).
  { intros l j k Hkk. unfold col, at_. now rewrite (nth_map_lt _ _ k []) by exact Hkk. }
  assert (SF : forall i v q, length v = length phs -> sf i phs v = Ok q -> tf i phs v = Ok q).
  { intros i v q Lv. unfold safe. now rewrite Df, Lv, Nat.eqb_refl. }
  assert (Pr : forall ph i, (i < n')%nat -> pred_val pf m' ph i = image A no_shift n (pred_val pf m ph) i).
  { intros ph i Hi. destruct (G16 i Hi) as (ps & sel & Eps & Enf).
    set (P := fun j => match tf j phs (col j tg) with Ok p => p | Err _ => [] end).
    assert (EPj : forall j, (j < n)%nat -> tf j phs (col j tg) = Ok (P j) /\ exists sel, nth_error fs j = Some (Fa (P j) (Some 1%nat) sel)).
    { intros j Hj. destruct (F16 j Hj) as (p & sl & Ep & En). apply SF in Ep; [|rewrite Cl; congruence]. unfold P. rewrite Ep. split; [reflexivity|eauto]. }
    destruct (trainer_comb n (A i) i (fun j => col j tg) (col i tg') P ps phs ph) as (v & V & Q1 & Q2 & Q3).
    - intros j Hj Na. exact (Ss i j Hi Hj Na).
    - split; [intros; rewrite !Cl; congruence|]. rewrite Cl. intros k Hkk. rewrite Nc by exact Hkk. rewrite Lt' in Hkk. rewrite (Ht k i Hkk Hi).
      unfold image, no_shift. rewrite Rplus_0_r. apply sumn_ext. intros j Hj. now rewrite Nc by (rewrite Lt; exact Hkk).
    - exact Df.
    - rewrite Cl. congruence.
    - intros j Hj. now apply EPj.
    - apply SF; [rewrite Cl; congruence|exact Eps].
    - unfold pred_val at 1. unfold fas_of, pdmp_of. cbn [p_fas]. rewrite G15, Enf. cbn [is_trained f_dim f_model]. rewrite Q1, Q3.
      unfold image, no_shift. rewrite Rplus_0_r. apply sumn_ext. intros j Hj. f_equal. unfold pred_val, fas_of, pdmp_of. cbn [p_fas]. rewrite F15.
      destruct (EPj j Hj) as (_ & sl & En). rewrite En. cbn [is_trained f_dim f_model]. now rewrite (Q2 j Hj). }
  intros ts Hts. destruct (movement_ok pf m ts W Hts) as (q & r & Eq & _ & Sp & Dq & Tq & Hq). destruct (movement_ok pf m' ts W' Hts) as (q' & r' & Eq' & _ & Sp' & Dq' & Tq' & Hq').
  exists q, q'. split; [exact Eq|]. split; [exact Eq'|]. split; [|exact Tq]. rewrite D in *. rewrite D' in *. split; [exact Dq|]. split; [exact Dq'|]. split; [congruence|].
  rewrite Tq. intros k i Hkk Hi. destruct (rollouts_image A b n n' pf m m' ts r r' K Sp Sp' Pr k Hkk i Hi) as (Y & Z & Zd).
  destruct (Hq' k i Hkk Hi) as (-> & -> & ->). rewrite Y, Z, Zd, G1. split; [|split].
  - apply img_ext. intros j Hj. symmetry. now apply Hq.
  - transitivity (image A no_shift n (fun j => / tau * zv n (a_xs r) k j) i); [rewrite lin_scal; unfold Rdiv; ring|].
    apply lin_ext. intros j Hj. destruct (Hq k j Hkk Hj) as (_ & Q & _). rewrite F1 in Q. rewrite Q. unfold Rdiv. ring.
  - transitivity (image A no_shift n (fun j => / tau * zv n (a_xds r) k j) i); [rewrite lin_scal; unfold Rdiv; ring|].
    apply lin_ext. intros j Hj. destruct (Hq k j Hkk Hj) as (_ & _ & Q). rewrite F1 in Q. rewrite Q. unfold Rdiv. ring.
Qed.
End Train.
