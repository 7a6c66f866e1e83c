(** Proofs about DMPs: what does not work before the initial state is known; setters; time steps of rollouts. *)
From Coq Require Import String.
From Verif Require Import Base BaseLemmas DynModel DynSpec DynProofs DynProofs6 ParamModel ParamSpec ParamProofs TrajModel DmpModel DmpSpec DmpProofs DmpProofs2 DmpProofs3 DmpProofs4 DmpProofs5 DmpProofs7 DmpProofs8 DmpProofs9 DmpProofs13 DmpProofs14 DmpProofs16.
Open Scope R_scope.

Section S.
Variable pf : nat -> list (string * pval) -> R -> res R.

Ltac dup E x := destruct x; [cbn [bind] in E |- *|discriminate E].

(** the initial state is missing *)
Lemma ana_no_y0 m ts s : sound pf m -> m_y0 m = None -> ts <> [] -> m_scaling m <> Amplitude \/ m_amps m <> None ->
  m_req m = true \/ m_scaling m = GMinusY0 -> (forall a, m_amps m = Some a -> length a = m_dim m) ->
  ana pf m ts s = Err AttributeError.
Proof.
  intros [_ S1] Hy Hts Hsc Hreq Ham.
  set (z := repeat 0 (m_dim m)). assert (Lz : length z = m_dim m) by apply repeat_length.
  destruct (ana_total pf _ ts s (S1 z z Lz Lz) Hts) as (r & E & _).
  unfold ana in *. unfold with_y0_amps in E at 1 2. cbn [m_phase m_gating] in E.
  destruct (sub_ana (m_phase m) ts) as [[xp xdp]|]; [|discriminate]. cbn [bind] in *.
  destruct (sub_ana (m_gating m) ts) as [[xg xdg]|]; [|discriminate]. cbn [bind] in *.
  destruct (mapM one xp) as [phs|]; [|discriminate]. cbn [bind] in *.
  destruct (mapM one xg) as [gas|]; [|discriminate]. cbn [bind] in *.
  change (predictions pf (with_y0_amps m z z)) with (predictions pf m) in E.
  destruct (mapM (predictions pf m) phs) as [fas|]; [|discriminate]. cbn [bind] in *.
  assert (Hf : m_scaling m = GMinusY0 \/ (m_req m = true /\ exists f, factors m TypeError = Ok f)).
  { unfold factors. destruct (m_scaling m); [right; split; [destruct Hreq; [trivial|discriminate]|eauto]|now left|].
    right. split; [destruct Hreq; [trivial|discriminate]|]. destruct (m_amps m) as [a|]; [|destruct Hsc; congruence].
    exists a. apply fit_same. now apply Ham. }
  destruct Hf as [Hf|[Hr [f Hf]]]; [unfold factors, y0_of; now rewrite Hf, Hy|]. rewrite Hf. cbn [bind].
  destruct (factors (with_y0_amps m z z) TypeError) as [f'|]; [|discriminate]. cbn [bind] in *.
  unfold with_y0_amps at 1 2 3 4 5 6 7 in E. cbn [m_goal m_damping m_attr m_spring] in E.
  destruct (match m_goal m with Some g => sub_ana g ts | None => _ end) as [[gs gds]|]; [|discriminate]. cbn [bind] in *.
  destruct (match m_damping m with Some g => sub_ana g ts | None => _ end) as [[ds dds]|]; [|discriminate]. cbn [bind] in *.
  set (fas' := if s then _ else _) in *.
  assert (Hd : exists d l, drives ts gs ds (map2 (forcing f) fas' gas) = d :: l).
  { destruct ts as [|t ts]; [congruence|]. destruct gs as [|g gs]; [discriminate|]. destruct ds as [|d ds]; [discriminate|].
    destruct fas' as [|a fas']; [discriminate|]. destruct gas as [|b gas]; [discriminate|]. cbn. eauto. }
  destruct Hd as (d & l & ->). unfold spring_rows, scale_goal, y0_of. now rewrite Hr, Hy.
Qed.

Lemma start_no_y0 m : sound pf m -> synced m -> plain_goal m -> dmp_regular m 0 -> m_y0 m = None -> m_req m = true ->
  m_start pf m None = Err AttributeError.
Proof.
  intros [_ S1] Sy Pl Rg Hy Hr.
  set (z := repeat 0 (m_dim m)). assert (Lz : length z = m_dim m) by apply repeat_length.
  destruct (start_state pf _ (S1 z z Lz Lz) Sy Pl Rg) as (m' & x & xd & E & _).
  unfold m_start in *. cbn [bind] in *. cbv zeta in *. unfold with_y0_amps in E at 1. cbn [m_goal] in E.
  change (m_attr (with_y0_amps m z z)) with (m_attr m) in E. change (dim_x (with_y0_amps m z z)) with (dim_x m) in E.
  change (ix_goal (with_y0_amps m z z)) with (ix_goal m) in E.
  destruct (match m_goal m with Some g => _ | None => _ end) as [g0|]; [|discriminate]. cbn [bind] in *.
  destruct (put_ix (ix_goal m) g0 _) as [x1|]; [|discriminate]. cbn [bind] in *.
  destruct (get_ix (ix_goal m) x1) as [x2|]; [|discriminate]. cbn [bind] in *.
  unfold scale_goal, y0_of. now rewrite Hr, Hy.
Qed.

(** amplitudes are missing *)
Lemma ana_no_amps m ts s : sound pf m -> m_amps m = None -> ts <> [] -> m_scaling m = Amplitude -> ana pf m ts s = Err TypeError.
Proof.
  intros [_ S1] Hy Hts Hsc.
  set (z := repeat 0 (m_dim m)). assert (Lz : length z = m_dim m) by apply repeat_length.
  destruct (ana_total pf _ ts s (S1 z z Lz Lz) Hts) as (r & E & _).
  unfold ana in *. unfold with_y0_amps in E at 1 2. cbn [m_phase m_gating] in E.
  destruct (sub_ana (m_phase m) ts) as [[xp xdp]|]; [|discriminate]. cbn [bind] in *.
  destruct (sub_ana (m_gating m) ts) as [[xg xdg]|]; [|discriminate]. cbn [bind] in *.
  destruct (mapM one xp) as [phs|]; [|discriminate]. cbn [bind] in *.
  destruct (mapM one xg) as [gas|]; [|discriminate]. cbn [bind] in *.
  change (predictions pf (with_y0_amps m z z)) with (predictions pf m) in E.
  destruct (mapM (predictions pf m) phs) as [fas|]; [|discriminate]. cbn [bind] in *.
  unfold factors. now rewrite Hsc, Hy.
Qed.

(** DMPs of all other types can be used right away *)
Lemma fresh_ready ty tau y0 attr fas kw m : 0 < tau -> length attr = length y0 -> full_kw (length y0) kw ->
  distinct_for ty y0 attr ->
  (match fas with None => True | Some fs => (fs = [] \/ (length y0 <= length fs)%nat) /\
     forall i f, nth_error fs i = Some f -> is_trained f = true -> forall ph, exists v, pf i (f_model f) ph = Ok v end) ->
  new_dmp ty tau y0 attr fas kw = Ok m ->
  sound pf m /\ synced m /\ plain_goal m /\ dmp_regular m 0 /\ m_dim m = length y0 /\
  m_y0 m = None /\ m_req m = requires_scaling ty /\ m_scaling m = opt (k_scaling kw) NoScaling /\ m_amps m = k_amps kw /\
  d_init (m_spring m) = pad (2 * length y0) y0.
Proof.
  intros H1 H2 H3 H4 H5 E. destruct (new_dmp_ok pf ty tau y0 attr fas kw H1 H2 H3 H4 H5) as (m1 & E1 & A1 & A2 & A3 & A4 & A5 & A6 & A7 & A8 & A9 & A10 & A11 & A12 & _).
  rewrite E in E1. injection E1 as <-. split; [trivial|]. split; [trivial|]. split; [trivial|]. split; [|spl].
  clear - H1 H3 E. destruct H3 as (K1 & K2 & K3 & K4 & K5 & _). unfold new_dmp in E. rewrite K1, K2, K3, K4, K5 in E. cbn [opt] in E. cbv zeta in E.
  assert (T : forall d, 0 <> t_tau (new_time tau d)) by (intros d; cbn; lra).
  destruct ty as [| | |ns da]; cbn [default_subs] in E.
  - injection E as <-. repeat split.
  - destruct (for_gating tau 0.1 1); [|discriminate]. cbn [bind] in E. injection E as <-. repeat split. apply T.
  - destruct (for_gating tau 0.1 1); [|discriminate]. cbn [bind] in E. injection E as <-. repeat split. apply T.
  - destruct da.
    + destruct (full _ _); [|discriminate]. cbn [bind] in E. injection E as <-. repeat split. apply T.
    + cbn [bind] in E. injection E as <-. repeat split. apply T.
Qed.

(** ** setting the initial state *)
Lemma set_y0_start m y : sound pf m -> synced m -> plain_goal m -> dmp_regular m 0 ->
  (m_scaling m = Amplitude -> exists a, m_amps m = Some a /\ length a = m_dim m) ->
  length y = m_dim m -> goal_accepts m y ->
  exists m', set_y0 m y = Ok m' /\ get_y0 m' = get_y0 m /\
    (exists m'' x xd, m_start pf m' None = Ok (m'', x, xd) /\
       forall i, (i < m_dim m)%nat -> nth i x 0 = nth i y 0 /\ nth (m_dim m + i) x 0 = 0) /\
    (forall ts sup, ts <> [] -> exists r, ana pf m' ts sup = Ok r /\
       forall i, (i < m_dim m)%nat -> yv (a_xs r) 0 i = nth i y 0 /\ zv (m_dim m) (a_xs r) 0 i = 0 /\ yv (a_xds r) 0 i = 0).
Proof.
  intros S Sy Pl Rg Am Hl Hg. destruct (set_y0_sound pf m y S Hl Hg) as (m' & E & S' & Y' & I' & D' & _). exists m'. split; [exact E|].
  assert (Em : exists sp g, m' = upd_y0 m y sp g /\ (match m_goal m with None => g = None | Some g0 => exists x, g = Some g0 \/
      g = Some (match g0 with SubE s => SubE (Esys (e_tau s) x (e_attr s) (e_alpha s)) | SubS s => SubS (Ssys (g_tau s) x (g_rate s) (g_infl s))
      | SubR s => SubR (Rsys (h_tau s) x (h_right s) (h_infl s) (h_alpha s) (h_v s) (h_left s)) | SubT s => SubT (Tsys (t_tau s) x (t_down s)) end) end)).
  { unfold set_y0 in E. destruct (Nat.eqb _ _); [|discriminate]. destruct (d_set_y_init _ _) as [sp|]; [|discriminate]. cbn [bind] in E.
    destruct (m_goal m) as [g0|]; [|cbn [bind] in E; injection E as <-; now eexists _, _].
    destruct (m_req m); [cbn [bind] in E; injection E as <-; eexists _, _; split; [reflexivity|exists []; now left]|].
    unfold sub_set_y_init in E. destruct (set_y_init _ _ y) as [x|]; [|discriminate]. cbn [bind] in E. injection E as <-. eexists _, _.
    split; [reflexivity|]. exists x. now right. }
  destruct Em as (sp & g & Em & Hgo). split; [subst m'; reflexivity|].
  assert (Rd : ready m').
  { split; [intros _; rewrite Y'; discriminate|]. intros Ha. subst m'. cbn in *. auto. }
  pose proof (sound_wf pf m' S' Rd) as W.
  assert (Sy' : synced m').
  { subst m'. unfold synced in *. cbn. destruct (m_goal m) as [g0|]; [|now rewrite Hgo]. destruct Hgo as [x [->| ->]]; [exact Sy|].
    destruct g0; cbn; trivial. }
  assert (Pl' : plain_goal m').
  { subst m'. unfold plain_goal in *. cbn. destruct (m_goal m) as [g0|]; [|auto]. destruct Hgo as [x [->| ->]]; discriminate. }
  assert (Rg' : dmp_regular m' 0).
  { subst m'. destruct Rg as (R1 & R2 & R3 & R4). unfold dmp_regular. cbn. split; [trivial|]. split; [trivial|]. split; [|trivial].
    destruct (m_goal m) as [g0|]; [|now rewrite Hgo]. destruct Hgo as [x [->| ->]]; [exact R3|]. destruct g0; cbn in *; trivial. }
  assert (Hp : forall i, (i < m_dim m)%nat -> nth i (pad (2 * m_dim m) y) 0 = nth i y 0 /\ nth (m_dim m + i) (pad (2 * m_dim m) y) 0 = 0).
  { intros i Hi. unfold pad. rewrite app_nth1 by lia. split; [reflexivity|]. rewrite app_nth2 by lia. apply nth_repeat. }
  split.
  - destruct (start_state pf m' W Sy' Pl' Rg') as (m'' & x & xd & Es & _ & Hx). exists m'', x, xd. split; [exact Es|].
    intros i Hi. rewrite !Hx by (rewrite D'; lia). rewrite I'. now apply Hp.
  - intros ts sup Ht. destruct (ana_total pf m' ts sup W Ht) as (r & Er & Hs). exists r. split; [exact Er|]. intros i Hi.
    destruct Hs as (_ & _ & _ & _ & _ & _ & _ & _ & _ & _ & H0 & H1 & _). rewrite D' in *.
    destruct (H0 i Hi) as [E1 E2]. rewrite I' in E1, E2. destruct (Hp i Hi) as [P1 P2]. rewrite P1 in E1. rewrite P2 in E2.
    split; [exact E1|]. split; [exact E2|]. destruct ts as [|t ts]; [congruence|]. destruct (H1 0%nat i ltac:(cbn; lia) Hi) as [E3 _].
    rewrite E3, E2. unfold Rdiv. ring.
Qed.
Lemma set_y0_wrong m y : length y <> m_dim m -> set_y0 m y = Err ValueError.
Proof. intros H. unfold set_y0. apply Nat.eqb_neq in H. now rewrite H. Qed.
End S.

(** ** the time steps of a task solver *)
Lemma linspace_spec T n : (1 <= n)%Z -> exists ts, linspace0 T n = Ok ts /\ length ts = Z.to_nat n /\ nth 0 ts 0 = 0 /\
  ((2 <= n)%Z -> last ts 0 = T /\ forall k, (S k < length ts)%nat -> nth (S k) ts 0 - nth k ts 0 = T / (IZR n - 1)).
Proof.
  intros Hn. unfold linspace0. destruct (Z.ltb_spec n 0); [lia|]. eexists. split; [reflexivity|].
  destruct (Z.to_nat n) as [|[|k]] eqn:E; [lia| |].
  - split; [reflexivity|]. split; [reflexivity|]. intros; lia.
  - set (f := fun i => T * INR i / (IZR n - 1)). assert (Hn1 : IZR n - 1 = INR (S k)).
    { replace n with (Z.of_nat (S (S k))) by lia. rewrite <- INR_IZR_INZ, (S_INR (S k)). ring. }
    assert (Hk : INR (S k) <> 0) by (apply not_0_INR; lia).
    split; [now rewrite map_length, seq_length|]. split; [rewrite nth_map_seq by lia; unfold f; cbn [INR]; rewrite Hn1; field; exact Hk|].
    intros _. split.
    + rewrite seq_S, map_app. cbn [map]. rewrite last_last. unfold f. rewrite Hn1. cbn [plus]. field. exact Hk.
    + intros j Hj. rewrite map_length, seq_length in Hj. rewrite !nth_map_seq by lia. unfold f. rewrite Hn1, (S_INR j). field. exact Hk.
Qed.
Lemma solver_steps m dt factor s : 0 < dt -> 0 <= m_tau m * factor -> new_solver m dt factor = Ok s ->
  (1 <= o_n s)%Z /\ o_time s = m_tau m * factor /\ o_dmp s = m /\
  (IZR (o_n s) - 1) * dt <= o_time s < IZR (o_n s) * dt.
Proof.
  intros Hd Ht E. unfold new_solver in E. destruct (Req_EM_T dt 0); [discriminate|]. injection E as <-. cbn.
  set (q := m_tau m * factor / dt). destruct (base_Int_part q) as [B1 B2].
  assert (Hq : 0 <= q) by (unfold q, Rdiv; apply Rmult_le_pos; [trivial|left; now apply Rinv_0_lt_compat]).
  assert (Hz : (0 <= Int_part q)%Z) by (apply Z.lt_succ_r, lt_IZR; rewrite succ_IZR; lra).
  split; [lia|]. split; [reflexivity|]. split; [reflexivity|]. rewrite plus_IZR.
  assert (Eq : m_tau m * factor = q * dt) by (unfold q; field; lra). rewrite Eq. split.
  - apply Rmult_le_compat_r; lra.
  - apply Rmult_lt_compat_r; lra.
Qed.
