(** Proofs about the C++ counterpart: DMPs made from a demonstration. *)
From Coq Require Import String.
From Verif Require Import Base BaseLemmas DynModel DynSpec DynProofs DynProofs2 ParamModel FaModel TrajModel DmpModel DmpSpec DmpProofs DmpProofs2 DmpProofs3 DmpProofs5 DmpProofs6 DmpProofs9 DmpProofs14 CppModel CppSpec CppProofs CppProofs2 CppProofs3 CppProofs5 CppProofs6.
Open Scope string_scope.
Open Scope R_scope.

Lemma train_goal pf tf m t m' t0 y a al : m_goal m = Some (SubE (Esys t0 y a (PScal al))) -> m_req m = false ->
  m_train pf tf m t = Ok m' ->
  exists y0, m_y0 m' = Some y0 /\
  m_goal m' = Some (SubE (Esys (t0 * (m_tau m' / m_tau m)) y0 (m_attr m') (PScal al))) /\ d_dimy (m_spring m') = d_dimy (m_spring m).
Proof.
  intros Eg Er E. unfold m_train in E.
  destruct (last_res (tj_ts t)) as [tau|]; [|discriminate]. cbn [bind] in E.
  unfold set_tau in E. destruct (Req_EM_T (m_tau m) 0) as [|Hm]; [discriminate|]. cbn [bind] in E. rewrite Eg in E.
  destruct (nth_res (mrows (tj_ys t)) 0) as [y0|]; [|discriminate]. cbn [bind] in E.
  unfold set_y0 in E. cbn [upd_tau m_dim m_spring m_goal m_req option_map sub_set_tau sub_tau e_tau e_init e_attr e_alpha] in E.
  destruct (Nat.eqb (length y0) (m_dim m)) eqn:Ly; [|discriminate].
  unfold d_set_y_init in E. cbn [d_set_tau d_tau d_init d_attr d_damp d_spring d_mass d_dimy] in E.
  destruct (set_y_init (d_dimy (m_spring m)) (2 * d_dimy (m_spring m)) y0) as [x0|] eqn:Ex; [|discriminate]. cbn [bind] in E. rewrite Er in E.
  unfold sub_set_y_init in E. cbn [sub_init sub_dim e_init e_tau e_attr e_alpha] in E.
  match type of E with context [set_y_init ?a ?b y0] => destruct (set_y_init a b y0) as [y1|] eqn:Ey end; [|discriminate]. cbn [bind] in E.
  assert (Ey1 : y1 = y0).
  { match type of Ey with set_y_init ?p ?q y0 = _ => change p with (length y) in Ey; change q with (length y) in Ey end.
    unfold set_y_init in Ey. destruct (Nat.eqb_spec (length y0) (length y)) as [L|]; [|discriminate].
    unfold set_x_init, pad in Ey. rewrite L, Nat.sub_diag in Ey. cbn [repeat] in Ey. rewrite app_nil_r in Ey. rewrite L, Nat.eqb_refl in Ey. congruence. }
  subst y1.
  destruct (last_res (mrows (tj_ys t))) as [yN|]; [|discriminate]. cbn [bind] in E.
  unfold set_yattr, goal_attr in E. cbn [upd_y0 upd_tau m_dim m_goal m_req] in E. rewrite Er in E.
  destruct (Nat.eqb (length yN) (m_dim m)); [|discriminate]. cbn [sub_set_attr e_init e_tau e_alpha] in E.
  destruct (Nat.eqb (length yN) (length y0)); [|discriminate]. cbn [bind] in E.
  destruct (get_range_per_dim t) as [am|]; [|discriminate]. cbn [bind] in E.
  match type of E with (let* m0 := ?b in _) = _ => destruct b as [m3|] eqn:E3 end; [|discriminate]. cbn [bind] in E.
  set (M := upd_amps _ _) in E3. cbv zeta in E3. fold M in E3.
  assert (Em : m' = upd_ts m3 (Some (tj_ts t))) by congruence. subst m'.
  assert (K : m_y0 m3 = m_y0 M /\ m_goal m3 = m_goal M /\ m_spring m3 = m_spring M /\ m_tau m3 = m_tau M /\ m_attr m3 = m_attr M).
  { destruct (m_fas M) as [fs|]; [|inversion E3; subst m3; now repeat split].
    destruct (targets pf M t) as [pt|]; [|discriminate]. cbn [bind] in E3. destruct (mapM _ _) as [tr|]; [|discriminate]. cbn [bind] in E3.
    inversion E3; subst m3. now repeat split. }
  destruct K as (K1 & K2 & K3 & K4 & K5). exists y0. cbn [upd_ts m_y0 m_goal m_spring m_tau m_attr]. rewrite K1, K2, K3, K4, K5.
  repeat split; reflexivity.
Qed.

Section Train.
Variable kinds : nat -> fa_kind.
Variable ns : nat -> nat.
Variables h lam : nat -> R.
Hypothesis Hn : forall i, (0 < ns i)%nat.
Hypothesis Hh : forall i, 0 < h i < 1.
Hypothesis Hlam : forall i, 0 <= lam i.
Notation pf := (py_predict exp kinds).
Notation tf := (trainer kinds ns h lam).
Notation sf := (safe kinds ns h lam).

(** the phases of a demonstration differ *)
Lemma phases_differ m t phs tg : wf pf m -> demo (m_dim m) t -> tj_ts t <> [] -> 0 < m_tau m -> m_tau m = last (tj_ts t) 0 ->
  hd 0 (tj_ts t) < last (tj_ts t) 0 -> (exists i d, m_phase m = SubT (Tsys (m_tau m) i d)) -> targets pf m t = Ok (phs, tg) ->
  differ phs = true /\ length phs = length tg.
Proof.
  intros W Dm Hne Ht El Hlt (i & d & Ep) E. destruct (wf_parts _ _ W) as (G & Gd & P & Pd & A & Ad & D & Dd & C & Cd & Q).
  rewrite (targets_form pf m G Gd P Pd A Ad D Dd C Cd W Q t Dm Hne) in E.
  destruct (mapM _ _) as [rows|] eqn:Er; [|discriminate]. cbn [bind] in E.
  assert (E1 : phs = map (fun s => nth 0 (P s) 0) (tj_ts t)) by congruence. assert (E2 : tg = rows) by congruence. subst phs tg. clear E.
  split.
  2:{ rewrite map_length. apply mapM_ok_length in Er. rewrite seq_length in Er. now symmetry. }
  assert (EP : forall u, P u = [let x := if d then 1 - u / m_tau m else u / m_tau m in
     if (if d then (if Rlt_dec x 0 then true else false) else (if Rlt_dec 1 x then true else false)) then (if d then 0 else 1) else x]).
  { intros u. pose proof (pt_EP _ _ _ _ _ _ _ _ _ _ _ Q [u]) as H. rewrite Ep in H. cbn [sub_ana] in H. unfold t_ana in H.
    cbn [t_tau t_down] in H. destruct (Req_EM_T (m_tau m) 0) as [?|_]; [lra|]. cbn [map] in H. symmetry. cbv zeta. congruence. }
  apply (differ_intro _ (nth 0 (P (hd 0 (tj_ts t))) 0) (nth 0 (P (last (tj_ts t) 0)) 0)).
  - apply (in_map (fun s => nth 0 (P s) 0)). destruct (tj_ts t); [contradiction|now left].
  - apply (in_map (fun s => nth 0 (P s) 0)). rewrite last_nth. apply nth_In. destruct (tj_ts t); [contradiction|cbn; lia].
  - rewrite !EP. cbn [nth]. rewrite <- El in *. set (t0 := hd 0 (tj_ts t)) in *. replace (m_tau m / m_tau m) with 1 by (field; lra).
    assert (Q1 : t0 / m_tau m < 1) by (apply (Rmult_lt_reg_r (m_tau m)); [trivial|]; unfold Rdiv; rewrite Rmult_assoc, Rinv_l by lra; lra).
    destruct d.
    + destruct (Rlt_dec (1 - t0 / m_tau m) 0) as [?|_]; [lra|]. destruct (Rlt_dec (1 - 1) 0) as [?|_]; lra.
    + destruct (Rlt_dec 1 (t0 / m_tau m)) as [?|_]; [lra|]. destruct (Rlt_dec 1 1) as [?|_]; lra.
Qed.

Lemma train_safe m t m' : sound pf m -> demo (m_dim m) t -> 0 < last (tj_ts t) 0 -> hd 0 (tj_ts t) < last (tj_ts t) 0 ->
  goal_accepts m (nth 0 (mrows (tj_ys t)) []) -> (exists i d, m_phase m = SubT (Tsys (m_tau m) i d)) ->
  m_train pf tf m t = Ok m' -> m_train pf sf m t = Ok m'.
Proof.
  intros S Dm Hl Hlt Hg (i & d & Ep) E.
  assert (Hne : tj_ts t <> []) by (intros Z; rewrite Z in Hl; cbn in Hl; lra).
  assert (Htau : m_tau m <> 0) by (apply (proj2 S (repeat 0 (m_dim m)) (repeat 0 (m_dim m))); apply repeat_length).
  destruct (train_setup pf m t S Dm Hne ltac:(lra) Hg) as (m2 & W2 & On & Ed & Ef & Es & Er & Esc & Ex & KC & Sy & Pl & Et).
  rewrite Et in E |- *. destruct (m_fas m2) as [fs|]; [|exact E].
  destruct (targets pf m2 t) as [[phs tg]|] eqn:ET; [|exact E]. cbn [bind fst snd] in E |- *.
  destruct On as (T2 & _). cbn [upd_ts m_tau] in T2.
  destruct (phases_differ m2 t phs tg) as [Df Lp]; trivial.
  { now rewrite Ed. }
  { now rewrite T2. }
  { destruct KC as (K1 & _). exists i, d. rewrite K1, Ep. cbn [sub_set_tau sub_tau t_tau t_init t_down]. do 2 f_equal. field. trivial. }
  rewrite <- E. f_equal. f_equal. apply mapM_ext. intros j Hj. destruct (nth_res fs j) as [f|]; [|reflexivity]. cbn [bind].
  unfold safe. rewrite Df. unfold col. rewrite map_length, Lp, Nat.eqb_refl. reflexivity.
Qed.

Lemma trained_good ty t fas kw m : ty = Kulvicius \/ ty = Countdown -> plain_kw kw ->
  demo (tj_dim t) t -> 0 < last (tj_ts t) 0 -> hd 0 (tj_ts t) < last (tj_ts t) 0 ->
  (tj_dim t <= length fas)%nat -> Forall (fun f => is_trained f = false) fas ->
  from_traj pf tf ty t (Some fas) kw = Ok m ->
  good exp kinds (tj_dim t) m.
Proof.
  intros Hty (K1 & K2 & K3 & K4 & K5 & d & K6) Dm Hl Hlt Hf Hu E.
  assert (Hne : tj_ts t <> []) by (intros Z; rewrite Z in Hl; cbn in Hl; lra).
  assert (Hpos : (0 < length (tj_ts t))%nat) by (destruct (tj_ts t); [congruence|cbn; lia]).
  unfold from_traj in E. rewrite (last_res_ok _ 0 Hne) in E. cbn [bind] in E.
  destruct (demo_row _ t 0 Dm Hpos) as [R0 L0]. rewrite R0 in E. cbn [bind] in E.
  destruct (demo_row _ t (length (tj_ts t) - 1) Dm ltac:(lia)) as [RN LN].
  assert (EN : last_res (mrows (tj_ys t)) = Ok (last (mrows (tj_ys t)) []) /\ length (last (mrows (tj_ys t)) []) = tj_dim t).
  { pose proof Dm as (_ & (L & _ & _) & _). rewrite last_nth, L. split; [|exact LN]. unfold last_res. rewrite L. exact RN. }
  destruct EN as [EN LN']. rewrite EN in E. cbn [bind] in E.
  set (y0 := nth 0 (mrows (tj_ys t)) []) in *. set (yN := last (mrows (tj_ys t)) []) in *. set (tau := last (tj_ts t) 0) in *.
  destruct (new_dmp_ok pf ty tau y0 yN (Some fas) kw Hl ltac:(congruence)) as (m0 & E0 & S0 & _ & _ & D0 & T0 & A0 & _ & F0 & R0' & Sc0 & _ & _ & M0 & Sp0 & Da0 & G0).
  { unfold full_kw. rewrite K6. do 5 (split; [trivial|]). exact I. }
  { unfold distinct_for. destruct Hty as [-> | ->]; exact I. }
  { split; [right; now rewrite L0|]. intros i f Hi Hit. exfalso. rewrite Forall_forall in Hu. apply nth_error_In in Hi. apply Hu in Hi. congruence. }
  rewrite E0 in E. cbn [bind] in E. rewrite L0 in D0.
  (* the subsystems *)
  destruct (for_gating_ok tau 0.1 1 Hl ltac:(lra)) as (s & Es & Ei & Ets & rt & inf & Ers & Eqs & _).
  unfold new_dmp in E0. rewrite K1, K2, K3, K4, K5, K6 in E0. cbn [opt] in E0.
  assert (DS : default_subs ty tau y0 yN (new_spring tau y0 yN (PScal d) None (PScal 1)) =
    Ok (Some (SubE (Esys tau y0 yN (PScal 15))), SubS s, SubT (new_time tau (match ty with Countdown => true | _ => false end)), None)).
  { unfold default_subs. destruct Hty as [-> | ->]; rewrite Es; reflexivity. }
  rewrite DS in E0. cbn [bind] in E0. clear DS.
  match type of E0 with Ok ?M = _ => assert (Em0 : m0 = M) by congruence end. clear E0.
  assert (P0 : m_phase m0 = SubT (new_time tau (match ty with Countdown => true | _ => false end))) by (rewrite Em0; reflexivity).
  assert (Q0 : m_gating m0 = SubS s) by (rewrite Em0; reflexivity).
  assert (Gm0 : m_goal m0 = Some (SubE (Esys tau y0 yN (PScal 15)))) by (rewrite Em0; reflexivity).
  assert (Dm0 : m_damping m0 = None) by (rewrite Em0; reflexivity).
  assert (Dy0 : d_dimy (m_spring m0) = tj_dim t) by (rewrite Em0; cbn; exact L0).
  assert (Req0 : m_req m0 = false) by (rewrite R0'; destruct Hty as [-> | ->]; reflexivity).
  clear Em0.
  assert (Dm' : demo (m_dim m0) t) by now rewrite D0.
  assert (Ga : goal_accepts m0 y0) by (right; now rewrite Gm0).
  destruct (train_goal pf tf m0 t m _ _ _ _ Gm0 Req0 E) as (y1 & Ey1 & Eg1 & Edy).
  apply train_safe in E; trivial.
  2:{ rewrite P0, T0. unfold new_time. eexists _, _. reflexivity. }
  destruct (train_ok pf sf m0 t m (safe_total kinds ns h lam Hn Hh Hlam) S0 Dm' ltac:(fold tau; lra) Ga E) as (On & W & D1 & Rq & Sc & _ & KC & _ & _ & Fa).
  rewrite F0 in Fa. destruct Fa as (phs & tg & fs' & _ & Ef' & Lf' & Hfs).
  destruct On as (T1 & Y1 & I1 & At1 & _ & am & Eam & Lam & _). fold tau y0 yN in T1, Y1, I1, At1.
  destruct KC as (C1 & C2 & C3 & C4 & C5 & C6 & _). rewrite P0, T0, T1 in C1. rewrite Q0, T0, T1 in C2. rewrite T0, T1 in Eg1.
  assert (Tt : tau * (tau / tau) = tau) by (field; lra).
  cbn [sub_set_tau sub_tau t_tau new_time] in C1. cbn [sub_set_tau sub_tau] in C2. rewrite Ets in C2. rewrite Tt in C1, C2, Eg1.
  assert (y1 = y0) by congruence. subst y1. rewrite At1 in Eg1.
  split; [exact W|]. split; [|split; [|split; [now rewrite T1|now rewrite D1]]].
  - unfold portable. cbv zeta. rewrite D1, D0. split; [now rewrite At1|]. split; [now rewrite Rq|]. split; [now rewrite C3|].
    split. { exists y0. split; [trivial|]. split; [trivial|]. split; [now rewrite I1, D1, D0|]. exists tau, yN, 15. split; [exact Eg1|exact LN']. }
    split; [now rewrite Edy|]. split; [destruct W as (_ & _ & _ & _ & _ & _ & Wt & _); exact Wt|].
    split. { exists d. rewrite C4, C5, Sp0, Da0, K6. now split. }
    split; [now rewrite C6|]. split; [rewrite C1; reflexivity|]. split; [rewrite C2; now exists rt, inf|].
    split. { intros _. exists am. split; [trivial|]. now rewrite Lam, D1, D0. }
    exists fs'. split; [trivial|]. split; [lia|]. intros i f Hi Hd.
    destruct (nth_error fas i) as [f0|] eqn:Ef0.
    2:{ apply nth_error_None in Ef0. lia. }
    specialize (Hfs i f0 Ef0). rewrite D0 in Hfs. destruct (Nat.ltb_spec i (tj_dim t)) as [_|?]; [|lia].
    destruct Hfs as (ps & Eps & Enf). rewrite Enf in Hi. injection Hi as <-. exact (proj1 (safe_portable kinds ns h lam Hn Hh Hlam i _ _ _ Eps) _).
  - unfold uniform. rewrite C1, C2, Eg1, T1. cbn. now repeat split.
Qed.
End Train.
