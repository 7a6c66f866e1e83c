(** Proofs about the C++ counterpart: where the two programs differ. *)
From Coq Require Import String.
From Verif Require Import Base BaseLemmas DynModel DynSpec DynProofs DynProofs2 ParamModel FaModel TrajModel DmpModel DmpSpec DmpSpec2 DmpProofs DmpProofs2 DmpProofs3 DmpProofs5 DmpProofs19 CppModel CppSpec CppProofs CppProofs2 CppProofs3 CppProofs4 CppProofs5.
Open Scope string_scope.
Open Scope R_scope.

(** ** new DMPs can not be read *)
Lemma new_unreadable ty tau y0 attr fas kw m : new_dmp ty tau y0 attr fas kw = Ok m -> m_y0 m = None.
Proof.
  unfold new_dmp. destruct (default_subs ty tau y0 attr _) as [[[[go ga] ph] da]|]; cbn [bind]; [|discriminate]. intros E.
  match type of E with Ok ?M = _ => assert (Em : m = M) by congruence end. now rewrite Em.
Qed.

(** ** times out of order *)
Lemma unsorted_differ : exists s ts xs xds xs' xds', sub_portable (SubT s) /\ 0 < t_tau s /\
  sub_ana (SubT s) ts = Ok (xs, xds) /\ csub_ana (csub_of (SubT s)) ts = Ok (xs', xds') /\ xs <> xs'.
Proof.
  exists (Tsys 1 [0] false), [2; 0]. cbn [sub_ana csub_ana csub_of].
  unfold t_ana, time_ana. cbn.
  repeat match goal with |- context [Req_EM_T ?a ?b] => destruct (Req_EM_T a b) as [?|_]; [lra|] end. cbn.
  repeat match goal with
  | |- context [Rlt_dec ?a ?b] => (destruct (Rlt_dec a b) as [?|?]; [|lra]) || (destruct (Rlt_dec a b) as [?|?]; [lra|])
  | |- context [Rle_dec ?a ?b] => (destruct (Rle_dec a b) as [?|?]; [|lra]) || (destruct (Rle_dec a b) as [?|?]; [lra|])
  end.
  do 4 eexists. split; [reflexivity|]. split; [lra|]. split; [reflexivity|]. split; [reflexivity|].
  intros E. apply (f_equal (fun l => nth 0 (nth 1 l []) 0)) in E. cbn in E. lra.
Qed.

(** ** results are transposed if the matrix of the caller has as many rows as the state *)
Lemma transposed ex c ts xs xds fts fas : c_ana ex c (0, 0)%nat ts = Ok (xs, xds, fts, fas) ->
  c_ana ex c (3 * cdim c + 2, length ts)%nat ts = Ok (ctranspose (3 * cdim c + 2) xs, ctranspose (3 * cdim c + 2) xds, fts, fas).
Proof.
  unfold c_ana. cbn [fst snd]. rewrite !Nat.eqb_refl. cbn [andb].
  assert (Z : (Nat.eqb 0 (3 * cdim c + 2) && Nat.eqb 0 (length ts))%bool = false) by (apply andb_false_iff; left; apply Nat.eqb_neq; lia).
  rewrite Z. clear Z. set (N := (3 * cdim c + 2)%nat). clearbody N.
  destruct (Nat.eqb (length ts) 0); [discriminate|].
  destruct (deref (cm_phase c)) as [p|]; cbn [bind]; [|discriminate]. destruct (csub_ana p ts) as [[a1 a2]|]; cbn [bind]; [|discriminate].
  destruct (deref (cm_gating c)) as [g|]; cbn [bind]; [|discriminate]. destruct (csub_ana g ts) as [[b1 b2]|]; cbn [bind]; [|discriminate].
  destruct (mapM _ a1) as [q|]; cbn [bind]; [|discriminate]. destruct (mapM _ (combine q b1)) as [r|]; cbn [bind]; [|discriminate].
  destruct (match cm_goal c with None => _ | Some _ => _ end) as [[g1 g2]|]; cbn [bind]; [|discriminate].
  destruct (cspring_rows c _) as [sps|]; cbn [bind]; [|discriminate].
  intros E. assert (E1 : zip4 (map fst sps) g1 a1 b1 = xs) by congruence. assert (E2 : zip4 (map snd sps) g2 a2 b2 = xds) by congruence.
  assert (E3 : r = fts) by congruence. assert (E4 : q = fas) by congruence. now rewrite E1, E2, E3, E4.
Qed.

(** ** a sigmoid system keeps its capacities when its initial output is set *)
Lemma stale_capacities : exists s c y x s' c' xd, sub_portable (SubS s) /\ csub_of (SubS s) = CS c /\
  sub_set_y_init (SubS s) y = Ok s' /\ sig_set_y_init c y = Ok c' /\
  sub_diffeq s' x = Ok xd /\ csub_diffeq (CS c') x <> Ok xd.
Proof.
  exists (Ssys 1 [1] (PScal 1) (PScal 0)), (new_csig 1 [1] 1 0), [3], [1]. eexists _, _, [5 / 6].
  split; [now exists 1, 0|]. split; [reflexivity|]. split; [reflexivity|]. split; [reflexivity|].
  split.
  - cbn [sub_diffeq]. unfold s_diffeq. cbn. match goal with |- context [exp ?e] => replace (exp e) with 1 by (rewrite <- exp_0; f_equal; ring) end. unfold s_diffeq_k. cbn.
    destruct (Req_EM_T (3 * (1 + 1 / 1)) 0) as [?|_]; [lra|]. cbn. f_equal. f_equal. field.
  - cbn. unfold sig_diffeq. cbn. match goal with |- context [exp ?e] => replace (exp e) with 1 by (rewrite <- exp_0; f_equal; ring) end. destruct (Req_EM_T (1 * (1 + 1 / 1)) 0) as [?|_]; [lra|]. cbn.
    intros E. injection E as E. lra.
Qed.

(** ** the gating of DMPs which are constructed in C++ *)
Lemma exp_1_3 : exp 1 <= 3.
Proof. exact exp_le_3. Qed.
Lemma native_gating : exists s c xs xds xs' xds', for_gating 1 0.1 1 = Ok s /\ s_ana s [1] = Ok (xs, xds) /\
  (forall y0 attr, snd (native_subs Kulvicius 1 y0 attr) = Some c /\ snd (native_subs Countdown 1 y0 attr) = Some c) /\
  csub_ana c [1] = Ok (xs', xds') /\ nth 0 (nth 0 xs []) 0 = 0.1 /\ 0.25 < nth 0 (nth 0 xs' []) 0.
Proof.
  destruct (gating_contract 1 0.1 1 ltac:(lra) ltac:(lra)) as (s & X & Xd & E & (A & _) & H).
  destruct (H 0%nat ltac:(lia)) as (_ & H1 & _). clear H.
  exists s, (CS (new_csig 1 [1] (-10) (0.9 * 1))), (map X [1]), (map Xd [1]). eexists _, _. split; [exact E|]. split; [apply A|]. split; [intros; now split|].
  split.
  { cbn [csub_ana]. unfold sig_ana. cbn [new_csig cg_init cg_ks existsb]. destruct (Req_EM_T 1 0) as [?|_]; [lra|]. cbn [orb].
    unfold compute_ks. cbn [map]. rewrite ceq_ok by reflexivity. cbn [bind]. reflexivity. }
  split; [exact H1|]. cbn.
  set (a := exp (- -10 * (0.9 * 1 * 1))).
  assert (Ha : 0 < a) by apply exp_pos.
  assert (Eb : exp (- -10 * 1) = a * exp 1) by (unfold a; rewrite <- exp_plus; f_equal; lra). rewrite Eb.
  pose proof exp_1_3 as He. pose proof (exp_pos 1) as Hp. set (e := exp 1) in *.
  assert (Hi : 0 < 1 / a) by (apply Rdiv_lt_0_compat; lra).
  replace (1 + (1 * (1 + 1 / a) / 1 - 1) * (a * e)) with (1 + e) by (field; lra).
  apply (Rmult_lt_reg_r (1 + e)); [lra|]. replace (1 * (1 + 1 / a) / (1 + e) * (1 + e)) with (1 + 1 / a) by (field; lra). lra.
Qed.

(** ** the differential equation of DMPs which are constructed in C++ *)
Section Native.
Variable ex : R -> R.
Variable kinds : nat -> fa_kind.
Notation pf := (py_predict ex kinds).
Lemma native_rate tau y0 attr fas fs kw m x :
  plain_kw kw -> opt (k_alpha kw) (PScal 20) = PScal 20 -> new_dmp Ijspeert tau y0 attr (Some fas) kw = Ok m -> wf pf m ->
  (forall i f, nth_error fas i = Some f -> fa_portable (kinds i) f) -> length fas = length y0 -> length fs = length y0 ->
  (forall i f, nth_error fas i = Some f -> load_fa (fa_json (kinds i) f) = Ok (nth i fs None)) ->
  length x = (4 * length y0 + 2)%nat ->
  exists c m' xd, new_native Ijspeert tau y0 attr fs (scaling_name (opt (k_scaling kw) NoScaling)) (opt (k_amps kw) []) = Ok c /\
    m_diffeq pf m x = Ok (m', xd) /\ c_rate ex c (visible (length y0) x) = Ok (visible (length y0) xd).
Proof.
  intros (K1 & K2 & K3 & K4 & K5 & _) K6 E W Hf Lf Lfs Hl Hx.
  unfold new_dmp in E. cbv zeta in E. rewrite K1, K2, K3, K4, K5, K6 in E. cbn [opt] in E. unfold default_subs in E. cbn [bind] in E.
  set (s := SubE (Esys tau [1] [0] (PScal 4))) in *. set (sc := opt (k_scaling kw) NoScaling) in *. set (n := length y0) in *.
  set (sp0 := new_spring tau y0 attr (PScal 20) None (PScal 1)) in *.
  match type of E with Ok ?M = _ => assert (Em : m = M) by congruence end. clear E. cbn [requires_scaling] in Em.
  assert (Ht : tau <> 0) by (pose proof (proj1 W) as Z; now rewrite Em in Z).
  assert (Ha : length attr = n) by (pose proof (proj1 (proj2 W)) as Z; now rewrite Em in Z).
  assert (Hgm : sc <> GMinusY0).
  { intros Z. pose proof W as (_ & _ & _ & H & _). rewrite Em in H. cbn [m_req m_scaling m_y0] in H. now apply H; [right|]. }
  assert (Ham : sc = Amplitude -> exists a, k_amps kw = Some a /\ length a = n).
  { pose proof W as (_ & _ & _ & _ & H & _). rewrite Em in H. exact H. }
  (* the same DMP with a goal system and an initial state that has been set *)
  set (ms := Dmp tau n (m_x_init m) (Some y0) attr (Some fas) [] (Dsys tau (y0 ++ repeat 0 n)%list attr (PScal 20) (PScal (20 * 20 / 4)) (PScal 1) n)
               (Some (SubE (Esys tau y0 attr (PScal 15)))) s s None false sc (k_amps kw) None).
  assert (Ws : wf pf ms).
  { pose proof W as (_ & _ & _ & _ & _ & _ & _ & _ & _ & _ & _ & _ & _ & _ & A1 & A2 & A3 & A4 & A5).
    rewrite Em in A1, A2, A3, A4, A5. cbn [m_phase m_gating] in A1, A2, A3, A4.
    unfold wf, ms. cbv zeta. cbn [m_tau m_dim m_attr m_y0 m_req m_scaling m_amps m_spring m_goal m_damping m_phase m_gating d_dimy d_tau d_init d_damp d_spring d_mass].
    split; [trivial|]. split; [trivial|]. split; [intros y Z; assert (y = y0) by congruence; now subst y|]. split; [discriminate|]. split; [trivial|].
    split; [trivial|]. split; [trivial|]. split; [rewrite app_length, repeat_length; lia|]. split; [exact I|]. split; [exact I|]. split; [exact I|].
    split; [intros; cbn; lra|]. split; [split; [split; [exact Ht|split; [trivial|exact I]]|reflexivity]|]. split; [exact I|].
    do 4 (split; [trivial|]). exact A5. }
  assert (Ps : portable kinds ms).
  { unfold portable, ms. cbv zeta. cbn [m_tau m_dim m_attr m_y0 m_req m_scaling m_amps m_spring m_goal m_damping m_phase m_gating m_fas d_dimy d_tau d_init d_damp d_spring d_mass].
    split; [trivial|]. split; [trivial|]. split; [trivial|]. split.
    { exists y0. do 3 (split; [trivial|]). now exists tau, attr, 15. }
    do 2 (split; [trivial|]). split; [now exists 20|]. split; [trivial|]. split; [split; [reflexivity|now exists 4]|]. split; [split; [reflexivity|now exists 4]|].
    split; [trivial|]. exists fas. split; [trivial|]. split; [lia|]. intros; now apply Hf. }
  assert (Es : sub_ok s /\ sub_portable s /\ sub_dim s = 1%nat).
  { split; [|split; [|reflexivity]]; [|split; [reflexivity|now exists 4]]. split; [exact Ht|]. split; [reflexivity|exact I]. }
  destruct Es as (Es1 & Es2 & Es3).
  destruct (split_state n x Hx) as (sp & g & p & a & c0 & -> & LX). pose proof LX as (S1 & S2 & _ & _ & S5).
  destruct (sub_same_rate s [p] Es1 Es2) as (pd & P1 & P2 & P3); [now rewrite Es3|].
  destruct (sub_same_rate s [a] Es1 Es2) as (ad & A1 & A2 & A3); [now rewrite Es3|].
  rewrite Es3 in P3, A3. destruct (list1 _ P3) as [pd0 ->]. destruct (list1 _ A3) as [ad0 ->].
  (* Python *)
  assert (Dn : m_dim m = n) by now rewrite Em.
  assert (LXm : same_layout (m_dim m) sp g [p] [a] c0) by now rewrite Dn.
  destruct (diffeq_general pf m W sp g p a c0 LXm) as [PY _].
  pose proof (nth_asm (m_dim m) _ _ _ _ _ LXm) as (_ & _ & _ & N4 & N5 & _). cbn [nth] in N4, N5.
  destruct (PY (repeat 0 n) pd0 ad0 (repeat 0 n)) as (LD & m' & EP).
  { unfold subsystem_rates. cbv zeta. rewrite Em. cbn [m_dim m_goal m_phase m_gating m_damping]. rewrite Em in N4, N5. cbn [m_dim] in N4, N5. rewrite N4, N5. now repeat split. }
  clear PY. rewrite Dn in LD, EP.
  (* C++ *)
  exists (cset_goal (img kinds ms) None), m'. eexists. split; [|split; [exact EP|]].
  - unfold new_native, native_subs, new_cdmp. cbn [bind].
    assert (Z1 : (String.eqb (scaling_name sc) "AMPLITUDE_SCALING" && negb (Nat.eqb (length (opt (k_amps kw) [])) n))%bool = false).
    { destruct sc eqn:Esc; cbn; trivial. destruct (Ham eq_refl) as (am & -> & La). cbn [opt]. now rewrite La, Nat.eqb_refl. }
    unfold n in Z1. rewrite Z1. rewrite Lfs, Nat.eqb_refl, andb_false_r. cbn [negb].
    f_equal. unfold cset_goal, img, ms. cbn [cm_tau cm_y0 cm_attr cm_spring cm_phase cm_gating cm_scaling cm_amps cm_fas m_tau m_y0 opt m_attr m_spring d_damp scal m_phase m_gating m_scaling m_amps m_dim].
    f_equal. unfold fas_of, pdmp_of. cbn [p_fas m_fas].
    transitivity (map (fun i => nth i fs None) (seq 0 n)); [rewrite <- Lfs; apply list_eq_map_nth|]. apply map_ext_in. intros i Hi. apply in_seq in Hi. unfold cfa_of.
    assert (En : nth_error fas i = Some (nth i fas (new_fa []))) by (apply nth_error_nth'; lia). now rewrite (Hl i _ En).
  - rewrite visible_asm by exact LX. rewrite visible_asm by exact LD.
    destruct (visible_parts n sp g p a S1 S2) as (V0 & V1 & V2 & V3 & V4). set (v := (sp ++ g ++ [p] ++ [a])%list) in *.
    unfold c_rate, c_diffeq.
    assert (CD : cdim (cset_goal (img kinds ms) None) = n) by reflexivity.
    rewrite CD, V0, Nat.eqb_refl, V1, V2, V3, V4. cbn [negb cset_goal cm_goal cm_attr cm_spring cm_phase cm_gating cm_tau bind].
    destruct (cspring_ok ex kinds ms Ws Ps sp attr S1 Ha) as (xd & E1 & E2).
    change (cm_spring (img kinds ms)) with (new_cspring (m_tau ms) (opt (m_y0 ms) []) (scal (d_damp (m_spring ms)))).
    change (cm_attr (img kinds ms)) with attr. rewrite E1. cbn [bind].
    change (cm_phase (img kinds ms)) with (Some (csub_of s)). change (cm_gating (img kinds ms)) with (Some (csub_of s)). cbn [deref bind].
    rewrite P2. cbn [bind]. rewrite A2. cbn [bind].
    change (cpredictions ex (Cdmp (cm_tau (img kinds ms)) (cm_y0 (img kinds ms)) attr (new_cspring (m_tau ms) (opt (m_y0 ms) []) (scal (d_damp (m_spring ms)))) None
      (Some (csub_of s)) (Some (csub_of s)) (cm_scaling (img kinds ms)) (cm_amps (img kinds ms)) (cm_fas (img kinds ms))) p) with (cpredictions ex (img kinds ms) p).
    change (cpredictions ex _ p) with (cpredictions ex (img kinds ms) p).
    rewrite (cpredictions_ok ex kinds ms Ws Ps). cbn [bind]. rewrite map_map.
    change (cscale _ ?f) with (cscale (img kinds ms) f). rewrite (cscale_ok ex kinds ms Ws (fun i => a * pred_val pf ms p i)). cbn [bind].
    change (cm_tau (img kinds ms)) with (m_tau ms). rewrite E2 by now rewrite map_length, seq_length. cbn [bind snd]. f_equal.
    f_equal. unfold accs. change (m_dim ms) with n. rewrite Dn. f_equal; [now rewrite Em|].
    apply map_ext_in. intros i Hi. apply in_seq in Hi. unfold damps. change (m_dim ms) with n. rewrite !nth_map_seq, nth_repeat_lt by lia.
    unfold goal_now, damping_now, forcing_now, accel. rewrite N4, N5.
    assert (Ef : factor ms i = factor m i) by (rewrite Em; unfold factor, ms; cbn [m_scaling m_amps]; destruct sc; [trivial|contradiction|trivial]).
    rewrite Ef. assert (Ep : pred_val pf ms p i = pred_val pf m p i) by (rewrite Em; reflexivity). rewrite Ep.
    replace (a * pred_val pf m p i * factor m i) with (pred_val pf m p i * a * factor m i) by ring.
    rewrite Em. reflexivity.
Qed.
End Native.

(** ** durations of the subsystems that differ from that of the DMP *)
Lemma ceq_length f a b r : ceq f a b = Ok r -> length r = length a /\ length r = length b.
Proof.
  unfold ceq. destruct (Nat.eqb (length a) (length b)) eqn:E; [|discriminate]. apply Nat.eqb_eq in E. intros H.
  assert (Z : r = map2 f a b) by congruence. rewrite Z, map2_length. lia.
Qed.
Lemma c_rate_phase ex c x xd : c_rate ex c x = Ok xd ->
  exists s r, cm_phase c = Some s /\ csub_diffeq s [nth (3 * cdim c) x 0] = Ok [r] /\ nth (3 * cdim c) xd 0 = r.
Proof.
  unfold c_rate, c_diffeq. set (n := cdim c).
  destruct (Nat.eqb (length x) (3 * n + 2)) eqn:Lx; cbn [negb]; [|discriminate]. apply Nat.eqb_eq in Lx.
  set (sp := firstn (2 * n) x). set (g := firstn n (skipn (2 * n) x)). set (p := nth (3 * n) x 0). set (a := nth (3 * n + 1) x 0).
  assert (Lg : length g = n) by (unfold g; rewrite firstn_length, skipn_length; lia).
  destruct (match cm_goal c with None => _ | Some _ => _ end) as [[[g1 at1] gd]|] eqn:E1; cbn [bind]; [|discriminate].
  assert (Lgd : length gd = n).
  { destruct (cm_goal c) as [e|].
    - destruct (exp_set_attr e (cm_attr c)) as [e1|]; cbn [bind] in E1; [|discriminate].
      destruct (exp_diffeq e1 g) as [r|] eqn:E2; cbn [bind] in E1; [|discriminate]. assert (r = gd) by congruence. subst r.
      unfold exp_diffeq in E2. destruct (Req_EM_T (ce_tau e1) 0); [discriminate|]. apply ceq_length in E2. lia.
    - assert (Z : gd = repeat 0 n) by congruence. rewrite Z. apply repeat_length. }
  destruct (cspring_diffeq (cm_spring c) at1 sp) as [xs|] eqn:E2; cbn [bind]; [|discriminate].
  destruct (cm_phase c) as [s|]; cbn [deref bind]; [|discriminate]. destruct (csub_diffeq s [p]) as [pd|] eqn:E3; cbn [bind]; [|discriminate].
  destruct (deref (cm_gating c)) as [s2|]; cbn [bind]; [|discriminate]. destruct (csub_diffeq s2 [a]) as [ad|] eqn:E4; cbn [bind]; [|discriminate].
  destruct (cpredictions ex c p) as [fa|]; cbn [bind]; [|discriminate]. destruct (cscale c _) as [f|]; cbn [bind]; [|discriminate].
  destruct (cadd_forcing (cm_tau c) n f xs) as [xs'|] eqn:E5; cbn [bind]; [|discriminate]. cbn [snd]. intros E.
  assert (Ls : length xs' = (2 * n)%nat).
  { assert (Lsp : length sp = (2 * n)%nat) by (unfold sp; rewrite firstn_length; lia).
    unfold cspring_diffeq in E2. destruct (Nat.eqb (length sp) (2 * length (cd_y0 (cm_spring c)))) eqn:Q1; cbn [negb andb] in E2; [|discriminate].
    destruct (Nat.eqb (length at1) (length (cd_y0 (cm_spring c)))) eqn:Q2; cbn [negb] in E2; [|discriminate].
    apply Nat.eqb_eq in Q1. apply Nat.eqb_eq in Q2. assert (Q3 : length (cd_y0 (cm_spring c)) = n) by lia. rewrite Q3 in *.
    destruct (Req_EM_T _ 0) as [?|_] in E2; [discriminate|]. destruct (Req_EM_T _ 0) as [?|_] in E2; [discriminate|].
    assert (Lxs : length xs = (2 * n)%nat).
    { match type of E2 with Ok ?l = _ => assert (Z : xs = l) by congruence end.
      rewrite Z, app_length, map_length, !map2_length, skipn_length, firstn_length. lia. }
    unfold cadd_forcing in E5. destruct (Req_EM_T (cm_tau c) 0); [discriminate|].
    destruct (ceq _ (skipn n xs) f) as [z|] eqn:Q4; cbn [bind] in E5; [|discriminate]. apply ceq_length in Q4. rewrite skipn_length in Q4.
    assert (Z : xs' = (firstn n xs ++ z)%list) by congruence. rewrite Z, app_length, firstn_length. lia. }
  assert (Lp : length pd = 1%nat).
  { clear - E3. destruct s as [e|g|t]; cbn [csub_diffeq] in E3.
    - unfold exp_diffeq in E3. destruct (Req_EM_T (ce_tau e) 0); [discriminate|]. apply ceq_length in E3. now destruct E3.
    - unfold sig_diffeq in E3. destruct (existsb _ _); [discriminate|]. apply ceq_length in E3. now destruct E3.
    - unfold time_diffeq in E3. destruct (ct_down t); [destruct (Rlt_dec 0 p)|destruct (Rlt_dec p 1)]; try destruct (Req_EM_T (ct_tau t) 0); try discriminate;
        match type of E3 with Ok ?l = _ => assert (Z : pd = l) by congruence end; now rewrite Z. }
  destruct (list1 _ Lp) as [r ->]. exists s, r. split; [reflexivity|]. split; [exact E3|].
  assert (Z : xd = (xs' ++ gd ++ [r] ++ ad)%list) by congruence. rewrite Z. rewrite app_nth2, app_nth2 by lia.
  replace (3 * n - length xs' - length gd)%nat with 0%nat by lia. reflexivity.
Qed.

Section Tau.
Variable ex : R -> R.
Variable kinds : nat -> fa_kind.
Notation pf := (py_predict ex kinds).
Variable m : dmp.
Hypothesis W : wf pf m.
Hypothesis Po : portable kinds m.
Hypothesis Hp : 0 < m_tau m.
Lemma tau_differs s t : m_phase m = SubT s -> t_tau s <> m_tau m -> 0 < t ->
  exists m' c' m2 x xd, set_tau m t = Ok m' /\ c_set_tau (img kinds m) t = Ok c' /\ length x = dim_x m /\
    m_diffeq pf m' x = Ok (m2, xd) /\ c_rate ex c' (visible (m_dim m) x) <> Ok (visible (m_dim m) xd).
Proof.
  intros Es Hs Ht. set (n := m_dim m).
  destruct (set_tau_sound pf m t (wf_sound pf m W) ltac:(lra) ltac:(lra)) as (m' & E1 & S & Em).
  assert (Hso : sub_ok (m_phase m)) by apply W. rewrite Es in Hso. pose proof (proj1 Hso) as Hs0. cbn [sub_tau] in Hs0. clear Hso.
  assert (D : m' = upd_tau m t (d_set_tau (m_spring m) (d_tau (m_spring m) * (t / m_tau m))) (option_map (fun s => sub_set_tau s (sub_tau s * (t / m_tau m))) (m_goal m))
      (sub_set_tau (m_phase m) (sub_tau (m_phase m) * (t / m_tau m))) (sub_set_tau (m_gating m) (sub_tau (m_gating m) * (t / m_tau m)))).
  { unfold set_tau in E1. destruct (Req_EM_T (m_tau m) 0) as [?|_]; [lra|]. congruence. }
  assert (W' : wf pf m').
  { apply sound_wf; [exact S|]. pose proof (wf_ready pf m W) as [R1 R2]. rewrite D. split; [exact R1|exact R2]. }
  assert (Dn : m_dim m' = n) by now rewrite D.
  set (x := (repeat 0 (3 * n) ++ [1 / 2; 0] ++ repeat 0 n)%list).
  assert (Lx : length x = dim_x m) by (unfold x, dim_x; rewrite !app_length, !repeat_length; cbn [length]; fold n; lia).
  assert (Lx' : length x = dim_x m') by (rewrite Lx; unfold dim_x; now rewrite Dn).
  pose proof Po as (_ & _ & _ & (y0 & _ & _ & _ & tg & at0 & al & Eg & _) & _ & _ & _ & _ & _ & Hga & _).
  destruct (diffeq_total pf m' x W' Lx') as (m2 & xd & E2).
  { rewrite D. cbn [upd_tau m_phase]. now rewrite Es. }
  { rewrite D. cbn [upd_tau m_gating]. now destruct (m_gating m). }
  { rewrite D. cbn [upd_tau m_goal]. rewrite Eg. cbn [option_map sub_set_tau]. intros g Z. match type of Z with Some ?u = _ => assert (g = u) by congruence end. now subst g. }
  { rewrite D. cbn [upd_tau m_damping]. destruct Po as (_ & _ & -> & _). discriminate. }
  destruct (proj1 (equation_iff pf m' W' x xd Lx') (ex_intro _ _ E2)) as (L1 & gd & pd & ad & cd & (_ & Rp & _) & N & _). cbv zeta in Rp, N. rewrite Dn in Rp, N.
  assert (X3 : nth (3 * n) x 0 = 1 / 2) by (unfold x; rewrite app_nth2 by (rewrite repeat_length; lia); now rewrite repeat_length, Nat.sub_diag). rewrite X3 in Rp.
  eexists m', _, m2, x, xd. split; [exact E1|]. split; [reflexivity|]. split; [exact Lx|]. split; [exact E2|].
  intros Z. apply c_rate_phase in Z. destruct Z as (s' & r & Z1 & Z2 & Z3).
  assert (CD : forall a b c d e, cdim (Cdmp t (cm_y0 (img kinds m)) a b c d e (cm_scaling (img kinds m)) (cm_amps (img kinds m)) (cm_fas (img kinds m))) = n).
  { intros. pose proof (cdim_img kinds m Po) as Q. exact Q. }
  rewrite CD in Z2, Z3. cbn [cm_phase img] in Z1. rewrite Es in Z1. cbn [csub_of csub_set_tau ct_down] in Z1.
  assert (Es' : s' = CT (Ctime t (t_down s))) by congruence. subst s'.
  assert (V : forall (l : list R), nth (3 * n) (visible n l) 0 = nth (3 * n) l 0).
  { intros l. unfold visible. destruct (le_lt_dec (length l) (3 * n + 2)); [now rewrite firstn_all2 by trivial|].
    rewrite <- (firstn_skipn (3 * n + 2) l) at 2. rewrite app_nth1; [reflexivity|]. rewrite firstn_length. lia. }
  fold n in Z2, Z3. rewrite V in Z2, Z3. rewrite X3 in Z2. rewrite N in Z3.
  rewrite D in Rp. cbn [upd_tau m_phase] in Rp. rewrite Es in Rp. cbn [sub_set_tau sub_tau sub_diffeq t_init t_down] in Rp.
  apply Hs. set (q := t_tau s * (t / m_tau m)) in *.
  assert (Hq : q <> 0) by (unfold q; apply Rmult_integral_contrapositive; split; [trivial|]; apply Rgt_not_eq, Rdiv_lt_0_compat; trivial).
  assert (Q : / t = / q).
  { unfold t_diffeq in Rp. cbn [csub_diffeq] in Z2. unfold time_diffeq in Z2. cbn [ct_down ct_tau t_down t_tau] in *.
    destruct (t_down s); cbn in Rp;
    repeat match goal with
    | H : context [Rlt_dec ?a ?b] |- _ => (destruct (Rlt_dec a b) as [?|?]; [|exfalso; lra])
    | H : context [Req_EM_T ?a ?b] |- _ => (destruct (Req_EM_T a b) as [?|_]; [exfalso; lra|])
    end.
    - assert (-1 / q = pd) by congruence. assert (-1 / t = r) by congruence. unfold Rdiv in *. lra.
    - assert (1 / q = pd) by congruence. assert (1 / t = r) by congruence. unfold Rdiv in *. lra. }
  assert (Q2 : t = q) by (rewrite <- (Rinv_inv t), Q; apply Rinv_inv).
  unfold q in Q2. apply (Rmult_eq_reg_r (t / m_tau m)); [|apply Rgt_not_eq, Rdiv_lt_0_compat; trivial].
  rewrite <- Q2. field. lra.
Qed.
End Tau.
