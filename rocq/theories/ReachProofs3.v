(** Step-by-step executions reach the goal: changes of the goal, and the types of DMPs after every history. *)
From Coq Require Import String Lia Lra.
From Verif Require Import Base BaseLemmas DynModel DynSpec DynProofs DynProofs2 ParamModel TrajModel DmpModel DmpSpec DmpSpec2 DmpProofs DmpProofs2 DmpProofs3 DmpProofs4 DmpProofs5 DmpProofs9 DmpProofs12 DmpProofs14 DmpProofs16 DmpProofs19 DmpProofs20 SchedProofs2 IntModel PushSpec PushProofs PushProofs2 ReachSpec ReachProofs ReachProofs2.
Open Scope R_scope.

Section S.
Variable pf : nat -> list (string * pval) -> R -> res R.
Variable tf : nat -> list R -> list R -> res (list (string * pval)).

Lemma short_touched m m1 dt i a : short_steps pf m dt i a -> touched m m1 -> short_steps pf m1 dt i a /\ m_gating m1 = m_gating m /\ m_attr m1 = m_attr m.
Proof.
  intros (Hi & Cr & Ad & Ht & Hd & Hu & B & Le) T. destruct T as (at_ & p & g & -> & Hp & Hg). cbn [upd_spring m_gating m_attr]. split; [|split; reflexivity].
  split; [exact Hi|]. split.
  { pose proof Cr as (Q1 & Q2 & Q3). unfold critically. cbn [upd_spring m_damping m_spring d_mass d_damp d_spring].
    split; [exact Q1|]. split; [|exact Q3]. destruct Hp as [->|[Hp _]]; [exact Q2|now contradiction Hp]. }
  split; [exact Ad|]. split; [exact Ht|]. split; [exact Hd|]. split; [exact Hu|]. split; [exact B|].
  unfold leads in *. cbn [upd_spring m_goal m_req]. destruct (m_goal m) as [g0|]; [|now rewrite Hg]. destruct g0 as [e| | |]; try contradiction.
  destruct Hg as [->|(g' & -> & Es)]; [exact Le|]. cbn [sub_set_attr] in Es. destruct (Nat.eqb _ _); [|discriminate]. injection Es as <-. exact Le.
Qed.
Lemma short_attr m g dt i a : short_steps pf m dt i a -> wf pf m -> length g = m_dim m -> exists m2, set_yattr m g = Ok m2 /\ short_steps pf m2 dt i a /\
  m_gating m2 = m_gating m /\ m_attr m2 = g /\ dim_x m2 = dim_x m /\ m_dim m2 = m_dim m.
Proof.
  intros (Hi & Cr & Ad & Ht & Hd & Hu & B & Le) W Lg. unfold set_yattr. rewrite Lg, Nat.eqb_refl.
  assert (Ex : exists go, goal_attr m g = Ok go /\ match go with None => True | Some (SubE e) => m_req m = false /\ 0 < par_val (e_alpha e) i * dt / e_tau e < 2 | Some _ => False end /\
     d_goal (upd_attr m g go) = d_goal m).
  { unfold goal_attr, leads in *. assert (Go : opt_ok (m_dim m) (m_goal m)) by apply W. unfold d_goal. destruct (m_goal m) as [g0|]; [|exists None; spl].
    destruct g0 as [e| | |]; try contradiction. destruct Le as [R1 R2]. rewrite R1. cbn [sub_set_attr]. destruct Go as [_ Sd]. unfold sub_dim in Sd. cbn [sub_init] in Sd.
    rewrite Lg, Sd, Nat.eqb_refl. cbn [bind]. eexists. split; [reflexivity|]. split; [now split|]. reflexivity. }
  destruct Ex as (go & Eg & Hg & Hd'). rewrite Eg. cbn [bind]. exists (upd_attr m g go). split; [reflexivity|]. split; [|now repeat split].
  split; [exact Hi|]. split; [exact Cr|]. split; [exact Ad|]. split; [exact Ht|]. split; [exact Hd|]. split; [exact Hu|]. split; [exact B|].
  unfold leads. cbn [upd_attr m_goal m_req]. destruct go as [[e| | |]|]; try contradiction; exact Hg.
Qed.

Lemma chased me dt i a plan : forall m m1 x, sound pf m -> ready m -> short_steps pf m dt i a -> fades (m_gating m) dt (nth (3 * m_dim m + 1) x 0) ->
  length x = dim_x m -> touched m m1 -> Forall (fun p => length (snd p) = m_dim m) plan ->
  exists m2 y, chase pf me m1 dt x plan = Ok (m2, y) /\ m_dim m2 = m_dim m /\ reaches pf me m2 dt y i (nth i (last_goal m plan) 0).
Proof.
  induction plan as [|[k g] plan IH]; intros m m1 x S Rd H Fa L T Fp.
  - exists m1, x. split; [reflexivity|]. split; [now destruct (touched_dim m m1 T) as (_ & ? & _)|]. destruct H as (Hi & Cr & Ad & Ht & Hd & Hu & B & Le).
    destruct (reached_goal pf me m1 m dt x i a (sound_wf pf m S Rd) Hi Cr Ad Ht Hd Hu B Fa Le L T) as [R _]. exact R.
  - inversion Fp as [|? ? Lg Fp']; subst. cbn [snd] in Lg. pose proof H as (Hi & Cr & Ad & Ht & Hd & Hu & B & Le).
    destruct (reached_goal pf me m1 m dt x i a (sound_wf pf m S Rd) Hi Cr Ad Ht Hd Hu B Fa Le L T) as [_ Q].
    destruct (Q k) as (m2 & y & E & T2 & Ly & Fy). cbn [chase]. rewrite E. cbn [bind fst snd].
    destruct (short_touched m m2 dt i a H T2) as (H2 & G2 & A2). destruct (touched_sound pf m m2 S T2) as (S2 & D2 & R2 & _). specialize (R2 Rd).
    destruct (touched_dim m m2 T2) as (Dx2 & _ & _).
    destruct (short_attr m2 g dt i a H2 (sound_wf pf m2 S2 R2) ltac:(congruence)) as (m3 & E3 & H3 & G3 & A3 & Dx3 & D3). rewrite E3. cbn [bind].
    assert (S3 : sound pf m3 /\ ready m3).
    { destruct (set_yattr_sound pf m2 g S2 ltac:(congruence)) as (g' & _ & E3' & S3). rewrite E3 in E3'. apply (f_equal (fun r => match r with Ok q => q | Err _ => m3 end)) in E3'. subst m3.
      split; [exact S3|]. exact R2. }
    destruct S3 as [S3 R3].
    destruct (IH m3 m3 y S3 R3 H3) as (m4 & z & E4 & D4 & Re).
    + rewrite G3, G2, D3, D2. exact Fy.
    + congruence.
    + apply touched_refl.
    + rewrite D3, D2. exact Fp'.
    + exists m4, z. split; [exact E4|]. split; [congruence|]. unfold last_goal in *. cbn [map snd]. rewrite A3 in Re. destruct plan as [|q r]; [exact Re|].
      change (last (g :: map snd (q :: r)) (m_attr m)) with (last (map snd (q :: r)) (m_attr m)).
      assert (Ll : forall (l : list (list R)) d d', l <> [] -> last l d = last l d').
      { induction l as [|b l IHl]; intros d d' Hl; [now contradiction Hl|]. destruct l; [reflexivity|]. cbn [last] in *. apply IHl. discriminate. }
      rewrite (Ll _ (m_attr m) g); [exact Re|discriminate].
Qed.

(** ** the initial state of the gating never changes *)
Lemma gate_tau m t m' : set_tau m t = Ok m' -> sub_init (m_gating m') = sub_init (m_gating m).
Proof.
  unfold set_tau. destruct (Req_EM_T _ _); [discriminate|]. intros E. injection E as <-. cbn [upd_tau m_gating]. now destruct (m_gating m).
Qed.
Lemma gate_y0 m y m' : set_y0 m y = Ok m' -> m_gating m' = m_gating m.
Proof.
  unfold set_y0. destruct (Nat.eqb _ _); [|discriminate]. destruct (d_set_y_init _ _); [|discriminate]. cbn [bind].
  destruct (match m_goal m with Some g => _ | None => _ end); [|discriminate]. cbn [bind]. intros E. injection E as <-. reflexivity.
Qed.
Lemma gate_touched m m1 : touched m m1 -> m_gating m1 = m_gating m.
Proof. intros (at_ & p & g & -> & _). reflexivity. Qed.
Lemma gate_change m c m' : apply1 pf tf m c = Ok m' -> sub_init (m_gating m') = sub_init (m_gating m).
Proof.
  intros E. destruct c as [t|y|y| |n|v|t|c]; cbn [apply1] in *.
  - exact (gate_tau _ _ _ E).
  - now rewrite (gate_y0 _ _ _ E).
  - unfold set_yattr in E. destruct (Nat.eqb _ _); [|discriminate]. destruct (goal_attr m y) eqn:Eg; [|discriminate]. cbn [bind] in E. now injection E as <-.
  - now injection E as <-.
  - now injection E as <-.
  - destruct (m_set_params m v) as [m1 [u|]] eqn:Ev; [|discriminate]. cbn [bind] in E. injection E as <-.
    unfold m_set_params in Ev. destruct (dmp_set _ _) as [p [u0|e0]]; [|discriminate]. destruct (mem _ _).
    + destruct (goal_attr _ _) eqn:Eg; [|discriminate]. now injection Ev as <- _.
    + now injection Ev as <- _.
  - unfold m_train in E. destruct (last_res (tj_ts t)) as [tau|]; [|discriminate]. cbn [bind] in E.
    destruct (set_tau m tau) as [m1|] eqn:E1; [|discriminate]. cbn [bind] in E. apply gate_tau in E1.
    destruct (nth_res _ _) as [y0|]; [|discriminate]. cbn [bind] in E. destruct (set_y0 m1 y0) as [m2|] eqn:E2; [|discriminate]. cbn [bind] in E. apply gate_y0 in E2.
    destruct (last_res (mrows (tj_ys t))) as [yN|]; [|discriminate]. cbn [bind] in E. unfold set_yattr in E. destruct (Nat.eqb _ _); [|discriminate].
    destruct (goal_attr m2 yN) as [g|] eqn:Eg; [|discriminate]. cbn [bind] in E. destruct (get_range_per_dim t) as [am|]; [|discriminate]. cbn [bind] in E.
    assert (D3 : sub_init (m_gating (upd_attr m2 yN g)) = sub_init (m_gating m)) by (cbn [upd_attr m_gating]; congruence).
    set (m3 := upd_attr m2 yN g) in *. clearbody m3.
    destruct (match m_fas _ with Some fs => _ | None => _ end) as [m4|] eqn:E4; [|discriminate]. cbn [bind] in E. injection E as <-.
    destruct (m_fas (upd_amps m3 (Some am))) as [fs|].
    + destruct (targets _ _ _) as [pt|]; [|discriminate]. cbn [bind] in E4. destruct (mapM _ _) as [tr|]; [|discriminate]. cbn [bind] in E4.
      injection E4 as <-. exact D3.
    + injection E4 as <-. exact D3.
  - f_equal. apply gate_touched. destruct c as [x| |ts s]; cbn [reply1] in E.
    + destruct (m_diffeq pf m x) as [[m1 xd]|] eqn:Ed; [|discriminate]. cbn in E. injection E as <-. now apply diffeq_touch in Ed.
    + destruct (m_start pf m None) as [[[m1 x] xd]|] eqn:Ed; [|discriminate]. cbn in E. injection E as <-. now apply start_touch in Ed.
    + destruct (ana pf m ts s) as [r|]; [|discriminate]. cbn in E. injection E as <-. apply touched_refl.
Qed.
Lemma gate_history cs : forall m m', apply_all pf tf m cs = Ok m' -> sub_init (m_gating m') = sub_init (m_gating m).
Proof.
  induction cs as [|c cs IH]; intros m m' E; cbn [apply_all] in *; [now injection E as <-|].
  destruct (apply1 pf tf m c) as [m1|] eqn:E1; [|discriminate]. cbn [bind] in E. rewrite (IH m1 m' E). exact (gate_change _ _ _ E1).
Qed.

(** ** the phase remains an exponential or a time system *)
Definition sane_phase (s : sub) : Prop :=
  match s with SubE e => nth 0 (e_attr e) 0 = 0 /\ 0 < par_val (e_alpha e) 0 / e_tau e | SubT t => 0 < t_tau t | _ => False end.
Lemma sane_tau m t m' : 0 < m_tau m -> 0 < t -> sane_phase (m_phase m) -> set_tau m t = Ok m' -> sane_phase (m_phase m').
Proof.
  intros H0 Ht Sp. unfold set_tau. destruct (Req_EM_T _ _); [discriminate|]. intros E. injection E as <-. cbn [upd_tau m_phase].
  assert (Hc : 0 < t / m_tau m) by now apply Rdiv_lt_0_compat. destruct (m_phase m) as [e| | |q]; try contradiction.
  - exact (limit_tau (SubE e) (t / m_tau m) 0 0 Sp Hc).
  - cbn in *. now apply Rmult_lt_0_compat.
Qed.
Lemma phase_change m c m' : 0 < m_tau m -> forward c -> sane_phase (m_phase m) -> apply1 pf tf m c = Ok m' -> sane_phase (m_phase m').
Proof.
  intros H0 Fw Sp E. destruct c as [t|y|y| |n|v|t|c]; cbn [apply1] in *.
  - exact (sane_tau _ _ _ H0 Fw Sp E).
  - now rewrite (set_y0_phase _ _ _ E).
  - unfold set_yattr in E. destruct (Nat.eqb _ _); [|discriminate]. destruct (goal_attr m y) eqn:Eg; [|discriminate]. cbn [bind] in E. now injection E as <-.
  - now injection E as <-.
  - now injection E as <-.
  - destruct (m_set_params m v) as [m1 [[]|]] eqn:Ev; [|discriminate]. cbn [bind] in E. injection E as <-. now rewrite (set_params_phase _ _ _ Ev).
  - unfold m_train in E. cbn [forward] in Fw. destruct (last_res (tj_ts t)) as [tau|] eqn:El; [|discriminate]. cbn [bind] in E.
    assert (Htau : 0 < tau).
    { destruct (tj_ts t) as [|t0 tl] eqn:Ets; [discriminate|]. rewrite (last_res_ok (t0 :: tl) 0) in El by discriminate. apply (f_equal (fun r => match r with Ok q => q | Err _ => 0 end)) in El. rewrite <- El. exact Fw. }
    destruct (set_tau m tau) as [m1|] eqn:E1; [|discriminate]. cbn [bind] in E. pose proof (sane_tau _ _ _ H0 Htau Sp E1) as Sp1.
    destruct (nth_res _ _) as [y0|]; [|discriminate]. cbn [bind] in E. destruct (set_y0 m1 y0) as [m2|] eqn:E2; [|discriminate]. cbn [bind] in E. apply set_y0_phase in E2. rewrite <- E2 in Sp1.
    destruct (last_res (mrows (tj_ys t))) as [yN|]; [|discriminate]. cbn [bind] in E. unfold set_yattr in E. destruct (Nat.eqb _ _); [|discriminate].
    destruct (goal_attr m2 yN) as [g|] eqn:Eg; [|discriminate]. cbn [bind] in E. destruct (get_range_per_dim t) as [am|]; [|discriminate]. cbn [bind] in E.
    assert (D3 : sane_phase (m_phase (upd_attr m2 yN g))) by exact Sp1.
    set (m3 := upd_attr m2 yN g) in *. clearbody m3.
    destruct (match m_fas _ with Some fs => _ | None => _ end) as [m4|] eqn:E4; [|discriminate]. cbn [bind] in E. injection E as <-.
    destruct (m_fas (upd_amps m3 (Some am))) as [fs|].
    + destruct (targets _ _ _) as [pt|]; [|discriminate]. cbn [bind] in E4. destruct (mapM _ _) as [tr|]; [|discriminate]. cbn [bind] in E4.
      injection E4 as <-. exact D3.
    + injection E4 as <-. exact D3.
  - assert (T : touched m m').
    { destruct c as [x| |ts s]; cbn [reply1] in E.
      + destruct (m_diffeq pf m x) as [[m1 xd]|] eqn:Ed; [|discriminate]. cbn in E. injection E as <-. now apply diffeq_touch in Ed.
      + destruct (m_start pf m None) as [[[m1 x] xd]|] eqn:Ed; [|discriminate]. cbn in E. injection E as <-. now apply start_touch in Ed.
      + destruct (ana pf m ts s) as [r|]; [|discriminate]. cbn in E. injection E as <-. apply touched_refl. }
    destruct T as (a_ & p_ & g_ & -> & _). exact Sp.
Qed.
Lemma phase_history Ds Ks Ms cs : predicts pf tf -> forall m m', sound pf m -> inv Ds Ks Ms m -> allowed pf tf m cs -> Forall forward cs -> sane_phase (m_phase m) -> apply_all pf tf m cs = Ok m' -> sane_phase (m_phase m').
Proof.
  intros Pr. induction cs as [|c cs IH]; intros m m' S I0 A F Sp E; cbn [apply_all allowed] in *; [now injection E as <-|].
  destruct A as [A1 A2]. inversion F as [|? ? F1 F2]; subst. destruct (apply1 pf tf m c) as [m1|] eqn:E1; [|discriminate]. cbn [bind] in E.
  destruct (change_sound pf tf Pr m c m1 S A1 E1) as (S1 & _). pose proof (proj1 I0) as T0.
  assert (I1 : inv Ds Ks Ms m1).
  { apply (inv_history pf tf Pr Ds Ks Ms [c] m m1 S I0); [cbn [allowed]; rewrite E1; now split|repeat constructor; exact F1|cbn [apply_all]; rewrite E1; reflexivity]. }
  exact (IH m1 m' S1 I1 A2 F2 (phase_change m c m1 T0 F1 Sp E1) E).
Qed.

Lemma below (c : R) : 0 < c -> exists h, 0 < h /\ forall dt, 0 < dt <= h -> 0 < c * dt < 2.
Proof.
  intros Hc. exists (/ c). split; [now apply Rinv_0_lt_compat|]. intros dt [H1 H2]. split; [now apply Rmult_lt_0_compat|].
  assert (c * dt <= c * / c) by (apply Rmult_le_compat_l; lra). rewrite Rinv_r in H by lra. lra.
Qed.

(** ** Ijspeert, Kulvicius and countdown DMPs after every history *)
Lemma history_short ty tau y0 attr fas kw m cs m' i : predicts pf tf -> 0 < tau -> length attr = length y0 -> full_kw (length y0) kw ->
  (forall s b, ty <> Sct23 s b) -> new_dmp ty tau y0 attr fas kw = Ok m -> sound pf m -> allowed pf tf m cs -> Forall forward cs -> apply_all pf tf m cs = Ok m' ->
  let d := par_val (opt (k_alpha kw) (PScal 20)) i in (i < m_dim m')%nat -> 0 < d -> bounded_force pf m' i ->
  exists h, 0 < h /\ forall dt, 0 < dt <= h -> short_steps pf m' dt i (d / 2) /\ forall g, 0 <= g <= 1 -> fades (m_gating m') dt g.
Proof.
  intros Pr Ht La K Hty En S A F E d Hi Hd B.
  destruct (critically_history pf tf ty tau y0 attr fas kw m cs m' Pr Ht La K Hty En S A F E) as (P & T & C). specialize (C i Hi). fold d in C.
  pose proof (inv_new ty tau y0 attr fas kw m Ht La K (Hty true) En) as I0.
  destruct (inv_history pf tf Pr _ _ _ cs m m' S I0 A F E) as (_ & Ga & Go & _).
  assert (G0 : sub_init (m_gating m') = [1]).
  { rewrite (gate_history cs m m' E). pose proof K as (K1 & K2 & K3 & K4 & K5 & _). unfold new_dmp in En. rewrite K1, K2, K3, K4, K5 in En. cbn [opt] in En.
    destruct (default_subs _ _ _ _ _) as [[[[go ga] ph] da]|] eqn:Ed; [|discriminate]. cbn [bind] in En. injection En as <-. cbn [m_gating].
    destruct ty as [| | |s b]; cbn [default_subs] in Ed; [injection Ed as <- <- <- <-; reflexivity| | |now contradiction (Hty s b)];
      (unfold for_gating in Ed; cbv zeta in Ed; repeat match type of Ed with context [if ?c then _ else _] => destruct c; [discriminate|] end; cbn [bind] in Ed; injection Ed as <- <- <- <-; reflexivity). }
  destruct (plain_parts m' P) as (P1 & P2 & P3 & P4).
  assert (X1 : exists h, 0 < h /\ forall dt, 0 < dt <= h -> 0 < d / 2 * dt / m_tau m' < 2).
  { destruct (below (d / 2 / m_tau m')) as (h & Hh & H); [apply Rdiv_lt_0_compat; lra|]. exists h. split; [exact Hh|]. intros dt H'. specialize (H dt H').
    replace (d / 2 * dt / m_tau m') with (d / 2 / m_tau m' * dt) by (unfold Rdiv; ring). exact H. }
  assert (X2 : exists h, 0 < h /\ forall dt, 0 < dt <= h -> leads m' i dt).
  { unfold inv_goal in Go. unfold leads. destruct (m_goal m') as [g|]; [|exists 1; split; [lra|trivial]]. specialize (Go i Hi). destruct (m_req m').
    - destruct Go as [[hh ->] _]. exfalso. exact (P3 _ eq_refl).
    - destruct Go as (e & -> & _ & Hp). destruct (below _ Hp) as (h & Hh & H). exists h. split; [exact Hh|]. intros dt H'. specialize (H dt H'). split; [reflexivity|].
      replace (par_val (e_alpha e) i * dt / e_tau e) with (par_val (e_alpha e) i / e_tau e * dt) by (unfold Rdiv; ring). exact H. }
  assert (X3 : exists h, 0 < h /\ forall dt, 0 < dt <= h -> forall g, 0 <= g <= 1 -> fades (m_gating m') dt g).
  { unfold fades. destruct (m_gating m') as [e|q|r|t]; cbn [limit sub_init] in Ga, G0.
    - destruct Ga as [Ga1 Ga2]. destruct (below _ Ga2) as (h & Hh & H). exists h. split; [exact Hh|]. intros dt H' g _. specialize (H dt H'). split; [exact Ga1|].
      replace (par_val (e_alpha e) 0 * dt / e_tau e) with (par_val (e_alpha e) 0 / e_tau e * dt) by (unfold Rdiv; ring). exact H.
    - destruct Ga as [_ Ga]. exists (/ (- par_val (g_rate q) 0)). assert (N : 0 < - par_val (g_rate q) 0) by lra. split; [now apply Rinv_0_lt_compat|]. intros dt [H1 H2] g Hg.
      split; [exact Ga|]. split; [|rewrite G0; cbn [nth]; lra]. assert (Q : - par_val (g_rate q) 0 * dt <= - par_val (g_rate q) 0 * / (- par_val (g_rate q) 0)) by (apply Rmult_le_compat_l; lra).
      rewrite Rinv_r in Q by lra. lra.
    - exfalso. cbn in P2. tauto.
    - contradiction. }
  assert (X4 : exists h, 0 < h /\ forall dt, 0 < dt <= h -> phase_stays (m_phase m') dt).
  { assert (Q : sane_phase (m_phase m')).
    { apply (phase_history _ _ _ cs Pr m m' S I0 A F); [|exact E]. pose proof K as (K1 & K2 & K3 & K4 & K5 & _). unfold new_dmp in En. rewrite K1, K2, K3, K4, K5 in En. cbn [opt] in En.
      destruct (default_subs _ _ _ _ _) as [[[[go ga] ph] da]|] eqn:Ed; [|discriminate]. cbn [bind] in En. injection En as <-. cbn [m_phase].
      destruct ty as [| | |s b]; cbn [default_subs] in Ed; [injection Ed as <- <- <- <-; cbn; split; [reflexivity|apply Rdiv_lt_0_compat; lra]| | |now contradiction (Hty s b)];
        (destruct (for_gating _ _ _); [|discriminate]; cbn [bind] in Ed; injection Ed as <- <- <- <-; cbn; exact Ht). }
    unfold phase_stays. destruct (m_phase m') as [e| | |t]; try contradiction; [|exists 1; split; [lra|intros; exact Q]].
    destruct Q as [Q1 Q2]. destruct (below _ Q2) as (h & Hh & H). exists h. split; [exact Hh|]. intros dt H'. specialize (H dt H'). split; [exact Q1|].
    replace (par_val (e_alpha e) 0 * dt / e_tau e) with (par_val (e_alpha e) 0 / e_tau e * dt) by (unfold Rdiv; ring). exact H. }
  destruct X1 as (h1 & Hh1 & X1). destruct X2 as (h2 & Hh2 & X2). destruct X3 as (h3 & Hh3 & X3). destruct X4 as (h4 & Hh4 & X4).
  exists (Rmin h4 (Rmin h1 (Rmin h2 h3))). split; [repeat apply Rmin_glb_lt; assumption|]. intros dt [D1 D2].
  assert (M : dt <= h1 /\ dt <= h2 /\ dt <= h3 /\ dt <= h4).
  { pose proof (Rmin_l h4 (Rmin h1 (Rmin h2 h3))). pose proof (Rmin_r h4 (Rmin h1 (Rmin h2 h3))). pose proof (Rmin_l h1 (Rmin h2 h3)). pose proof (Rmin_r h1 (Rmin h2 h3)). pose proof (Rmin_l h2 h3). pose proof (Rmin_r h2 h3). lra. }
  destruct M as (M1 & M2 & M3 & M4). split; [|apply X3; lra]. split; [exact Hi|]. split; [exact C|]. split.
  { apply X4; lra. }
  split; [exact T|]. split; [exact D1|]. split; [apply X1; lra|]. split; [exact B|]. apply X2; lra.
Qed.

(** integrate_start puts the initial state of the gating into the state *)
Lemma start_gating m m' x xd : wf pf m -> m_start pf m None = Ok (m', x, xd) -> nth (3 * m_dim m + 1) x 0 = nth 0 (sub_init (m_gating m)) 0.
Proof.
  intros W. assert (Sd : length (sub_init (m_gating m)) = 1%nat) by apply W. assert (Dg : d_goal m = m_dim m) by (exact (goal_dim pf m W)).
  unfold m_start. cbv zeta. cbn [bind]. intros E.
  repeat match type of E with
  | bind (put_ix (ix_gating _) ?v ?x) _ = Ok _ => fail 1
  | bind ?a _ = Ok _ => let Q := fresh "Q" in destruct a eqn:Q; [cbn [bind] in E|discriminate]
  | (let '(_, _) := ?p in _) = Ok _ => destruct p
  end.
  match type of E with bind (put_ix (ix_gating _) ?v ?z) _ = Ok _ => set (l2 := z) in *; clearbody l2; destruct (put_ix (ix_gating m) v l2) as [y|] eqn:Py; [cbn [bind] in E|discriminate] end.
  match type of E with bind ?a _ = Ok _ => destruct a; [cbn [bind] in E|discriminate] end. injection E as _ <- _.
  unfold put_ix, ix_gating in Py. cbn [fst snd] in Py. destruct (Nat.leb_spec (m_dim m + m_dim m + d_goal m + 1 + 1) (length l2)) as [Hl|]; [|discriminate].
  unfold fit in Py. rewrite Sd in Py. cbn [Nat.eqb bind] in Py. injection Py as <-. rewrite Dg in *.
  rewrite app_nth2 by (rewrite firstn_length; lia). rewrite firstn_length. replace (3 * m_dim m + 1 - Nat.min (m_dim m + m_dim m + m_dim m + 1) (length l2))%nat with 0%nat by lia.
  rewrite app_nth1 by lia. reflexivity.
Qed.
Lemma history_chased me ty tau y0 attr fas kw m cs m' i : predicts pf tf -> 0 < tau -> length attr = length y0 -> full_kw (length y0) kw ->
  (forall s b, ty <> Sct23 s b) -> new_dmp ty tau y0 attr fas kw = Ok m -> sound pf m -> allowed pf tf m cs -> Forall forward cs -> apply_all pf tf m cs = Ok m' -> ready m' ->
  let d := par_val (opt (k_alpha kw) (PScal 20)) i in (i < m_dim m')%nat -> 0 < d -> bounded_force pf m' i ->
  exists h, 0 < h /\ forall dt, 0 < dt <= h -> forall plan, Forall (fun p => length (snd p) = m_dim m') plan -> forall m0 x,
    (exists xd, m_start pf m' None = Ok (m0, x, xd)) \/ (m0 = m' /\ length x = dim_x m' /\ 0 <= nth (3 * m_dim m' + 1) x 0 <= 1) ->
    exists m2 y, chase pf me m0 dt x plan = Ok (m2, y) /\ reaches pf me m2 dt y i (nth i (last_goal m' plan) 0).
Proof.
  intros Pr Ht La K Hty En S A F E Rd d Hi Hd B.
  destruct (history_short ty tau y0 attr fas kw m cs m' i Pr Ht La K Hty En S A F E Hi Hd B) as (h & Hh & H).
  exists h. split; [exact Hh|]. intros dt Hdt plan Hp m0 x Hx. destruct (H dt Hdt) as [H1 H2].
  destruct (history_sound pf tf Pr cs m m' S A E) as (S' & _). pose proof (sound_wf pf m' S' Rd) as W.
  assert (Q : touched m' m0 /\ length x = dim_x m' /\ 0 <= nth (3 * m_dim m' + 1) x 0 <= 1).
  { destruct Hx as [[xd E0]|(-> & L & G)].
    - split; [exact (start_touch pf _ _ _ _ E0)|]. split; [exact (start_length pf _ _ _ _ E0)|]. rewrite (start_gating m' m0 x xd W E0).
      rewrite (gate_history cs m m' E). pose proof K as (K1 & K2 & K3 & K4 & K5 & _). unfold new_dmp in En. rewrite K1, K2, K3, K4, K5 in En. cbn [opt] in En.
      destruct (default_subs _ _ _ _ _) as [[[[go ga] ph] da]|] eqn:Ed; [|discriminate]. cbn [bind] in En. injection En as <-. cbn [m_gating].
      destruct ty as [| | |s b]; cbn [default_subs] in Ed; [injection Ed as <- <- <- <-; cbn; lra| | |now contradiction (Hty s b)];
      (unfold for_gating in Ed; cbv zeta in Ed; repeat match type of Ed with context [if ?c then _ else _] => destruct c; [discriminate|] end; cbn [bind] in Ed; injection Ed as <- <- <- <-; cbn; lra).
    - split; [apply touched_refl|]. now split. }
  destruct Q as (Q1 & Q2 & Q3).
  destruct (chased me dt i (d / 2) plan m' m0 x S' Rd H1 (H2 _ Q3) Q2 Q1 Hp) as (m2 & y & E2 & _ & Re). now exists m2, y.
Qed.
End S.
