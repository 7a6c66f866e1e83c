(** Proofs about contextual DMPs: rollouts for the task parameters of a demonstration. *)
From Coq Require Import String.
From Verif Require Import Base BaseLemmas DynModel DynSpec ParamModel ParamSpec ParamProofs TrajModel DmpModel DmpSpec DmpProofs6 DmpProofs8 DmpProofs9 DmpProofs14 ContextModel ContextSpec ContextProofs ContextProofs2.
Open Scope R_scope.

(** ** Models are determined by their selected values *)
Lemma lookup_ext {V} : forall (d d' : list (string * V)), NoDup (map fst d) -> map fst d' = map fst d ->
  (forall n, lookup d' n = lookup d n) -> d' = d.
Proof.
  induction d as [|[k v] d IH]; intros [|[k' v'] d'] N E H; try discriminate; [reflexivity|].
  cbn in E. injection E as -> E. inversion N as [|? ? Hn N']; subst. pose proof (H k) as Hk. cbn in Hk. rewrite String.eqb_refl in Hk.
  assert (v' = v) by congruence. subst v'. f_equal. apply IH; [exact N'|exact E|]. intros n. specialize (H n). cbn in H.
  destruct (String.eqb_spec n k) as [Enk|]; [|exact H]. rewrite Enk.
  assert (forall (e : list (string * V)), ~ In k (map fst e) -> lookup e k = None) as L.
  { induction e as [|[a b] e IHe]; [reflexivity|]. cbn. intros Hi. destruct (String.eqb_spec k a) as [->|]; [exfalso; apply Hi; now left|]. apply IHe. tauto. }
  rewrite !L; [reflexivity|exact Hn|congruence].
Qed.
Lemma values_equal sel : forall m m' v, get_values m sel = Ok v -> get_values m' sel = Ok v -> arrs m sel -> arrs m' sel ->
  (forall n a a', lookup m n = Some (PArr a) -> lookup m' n = Some (PArr a') -> ashape a' = ashape a) ->
  forall n, In n sel -> lookup m' n = lookup m n.
Proof.
  induction sel as [|l sel IH]; intros m m' v G G' A A' Sh n Hn; [destruct Hn|].
  inversion A as [|? ? (a & La & _ & Wa) As]; subst. inversion A' as [|? ? (a' & La' & _ & Wa') As']; subst.
  cbn [get_values] in G, G'. rewrite La in G. rewrite La' in G'.
  destruct (get_values m sel) as [w|] eqn:Ew; [|discriminate]. destruct (get_values m' sel) as [w'|] eqn:Ew'; [|discriminate]. cbn [bind] in *.
  assert (E : (adata a ++ w = adata a' ++ w')%list) by congruence. pose proof (Sh l a a' La La') as Es.
  assert (El : length (adata a) = length (adata a')) by congruence.
  assert (E2 : adata a = adata a' /\ w = w').
  { clear -E El. revert E El. generalize (adata a) (adata a'). intros x y. revert y. induction x as [|h x IHx]; intros [|h' y] E El; cbn in *; try discriminate; [now split|].
    injection E as -> E. destruct (IHx y E ltac:(lia)) as [-> ->]. now split. }
  destruct E2 as [E2 E3]. destruct Hn as [->|Hn].
  - rewrite La, La'. destruct a, a'. cbn in *. congruence.
  - apply (IH m m' w); auto. congruence.
Qed.
Lemma fa_determined f0 f f' v : same_but (fa_selection f0) f0 f -> same_but (fa_selection f0) f0 f' -> NoDup (map fst (f_model f0)) ->
  selectable f -> selectable f' -> fa_get f = Ok v -> fa_get f' = Ok v -> f' = f.
Proof.
  intros (D & S & K & L & Sh) (D' & S' & K' & L' & Sh') N Hf Hf' G G'.
  destruct (selectable_inv f Hf) as (sel & Es & T & _ & A). destruct (selectable_inv f' Hf') as (sel' & Es' & T' & _ & A').
  assert (sel' = sel) by congruence. subst sel'. assert (Efs : fa_selection f0 = sel) by (unfold fa_selection; rewrite <- S, Es; reflexivity). rewrite Efs in *.
  unfold fa_get in G, G'. rewrite Es, T in G. rewrite Es', T' in G'.
  assert (Em : f_model f' = f_model f).
  { apply lookup_ext; [congruence|congruence|]. intros n. destruct (in_dec String.string_dec n sel) as [Hn|Hn].
    - apply (values_equal sel _ _ v G G' A A'); [|exact Hn]. intros n0 a a' H H'. specialize (Sh n0). specialize (Sh' n0).
      destruct (lookup (f_model f0) n0) as [[|a0|r]|] eqn:E0; try congruence.
      destruct Sh as (b & Eb & Hb). destruct Sh' as (b' & Eb' & Hb'). assert (b = a) by congruence. assert (b' = a') by congruence. subst. congruence.
    - rewrite L', L; auto. }
  destruct f, f'. cbn in *. congruence.
Qed.
Lemma fas_determined fs0 : forall fs fs' v, same_fas fs0 fs -> same_fas fs0 fs' -> Forall (fun f => NoDup (map fst (f_model f))) fs0 ->
  sel_fas fs -> sel_fas fs' -> fas_get fs = Ok v -> fas_get fs' = Ok v -> fs' = fs.
Proof.
  induction fs0 as [|f0 fs0 IH]; intros fs fs' v S S' N H H' G G'.
  - inversion S; inversion S'. reflexivity.
  - inversion S as [|? f ? r [Sf Uf] Sr]; subst. inversion S' as [|? f' ? r' [Sf' Uf'] Sr']; subst.
    inversion N as [|? ? Nf Nr]; subst. inversion H as [|? ? Hf Hr]; subst. inversion H' as [|? ? Hf' Hr']; subst.
    assert (Et : is_trained f = is_trained f0) by (unfold is_trained; now rewrite (proj1 Sf)).
    assert (Et' : is_trained f' = is_trained f0) by (unfold is_trained; now rewrite (proj1 Sf')).
    cbn [fas_get] in G, G'. rewrite Et in G. rewrite Et' in G'. destruct (is_trained f0) eqn:T.
    + destruct (fa_get_size f (Hf Et)) as (a & Ga & Sa). destruct (fa_get_size f' (Hf' Et')) as (a' & Ga' & Sa').
      rewrite Ga in G. rewrite Ga' in G'. destruct (fas_get r) as [w|] eqn:Ew; [|discriminate]. destruct (fas_get r') as [w'|] eqn:Ew'; [|discriminate]. cbn [bind] in *.
      assert (E : (a ++ w = a' ++ w')%list) by congruence.
      assert (El : length a = length a').
      { assert (Ez : fa_size f = fa_size f').
        { unfold fa_size. destruct Sf as (_ & Ss & _ & _ & Sh). destruct Sf' as (_ & Ss' & _ & _ & Sh'). rewrite Ss, Ss'. destruct (f_sel f0) as [sel|]; [|reflexivity].
          clear -Sh Sh'. induction sel as [|n sel IHs]; [reflexivity|]. cbn [sizes]. rewrite IHs. specialize (Sh n). specialize (Sh' n).
          destruct (lookup (f_model f0) n) as [[|b|x]|]; try (now rewrite Sh, Sh').
          destruct Sh as (c & -> & Hc). destruct Sh' as (c' & -> & Hc'). now rewrite Hc, Hc'. }
        rewrite Sa, Sa' in Ez. congruence. }
      assert (E2 : a = a' /\ w = w').
      { clear -E El. revert a' E El. induction a as [|h x IHx]; intros [|h' y] E El; cbn in *; try discriminate; [now split|].
        injection E as -> E. destruct (IHx y E ltac:(lia)) as [-> ->]. now split. }
      destruct E2 as [<- <-]. f_equal; [|now apply (IH r r' w)].
      apply (fa_determined f0 f f' a); auto.
    + rewrite (Uf eq_refl), (Uf' eq_refl). f_equal. now apply (IH r r' v).
Qed.

(** ** Setting the same values again *)
Lemma set_y_init_length d n y x : set_y_init d n y = Ok x -> length x = n.
Proof.
  unfold set_y_init, set_x_init. destruct (Nat.eqb _ _); [|discriminate]. destruct (Nat.eqb_spec (length (pad n y)) n); [|discriminate]. intros H. injection H as <-. assumption.
Qed.
Lemma sub_tau_one s : sub_set_tau s (sub_tau s * 1) = s.
Proof. destruct s as [[]|[]|[]|[]]; cbn; rewrite Rmult_1_r; reflexivity. Qed.
Lemma sub_y_twice g y g1 a g2 : sub_set_y_init g y = Ok g1 -> sub_set_attr g1 a = Ok g2 -> sub_set_y_init g2 y = Ok g2.
Proof.
  unfold sub_set_y_init. destruct (set_y_init (sub_dim g) (sub_dim g) y) as [x|] eqn:E; [|discriminate]. cbn [bind]. intros H1 H2.
  pose proof (set_y_init_length _ _ _ _ E) as Lx.
  destruct g as [s|s|s|s]; injection H1 as <-; cbn in H2.
  - destruct (Nat.eqb _ _); [|discriminate]. injection H2 as <-. unfold sub_dim in *. cbn [sub_init e_init] in *. rewrite Lx, E. reflexivity.
  - injection H2 as <-. unfold sub_dim in *. cbn [sub_init g_init] in *. rewrite Lx, E. reflexivity.
  - injection H2 as <-. unfold sub_dim in *. cbn [sub_init h_init] in *. rewrite Lx, E. reflexivity.
  - injection H2 as <-. unfold sub_dim in *. cbn [sub_init t_init] in *. rewrite Lx, E. reflexivity.
Qed.
Lemma setup3_again m tau y0 yN m3 a fs ts m' : setup3 m tau y0 yN = Ok m3 ->
  setup3 (upd_ts (upd_fas (upd_amps m3 a) fs) ts) tau y0 yN = Ok m' -> m' = upd_ts (upd_fas (upd_amps m3 a) fs) ts.
Proof.
  intros H H'. set (m4 := upd_ts _ ts) in *.
  unfold setup3 in H, H'. destruct (set_tau m tau) as [m1|] eqn:E1; [|discriminate]. cbn [bind] in H.
  destruct (set_y0 m1 y0) as [m2|] eqn:E2; [|discriminate]. cbn [bind] in H.
  apply set_y0_frame in E2. destruct E2 as (L0 & sp & g & Esp & Hg & E2).
  apply set_yattr_frame in H. destruct H as (L1 & g' & Eg & H).
  apply set_tau_frame in E1. destruct E1 as [Hn E1].
  destruct (set_tau m4 tau) as [n1|] eqn:F1; [|discriminate]. cbn [bind] in H'.
  destruct (set_y0 n1 y0) as [n2|] eqn:F2; [|discriminate]. cbn [bind] in H'.
  apply set_tau_frame in F1. destruct F1 as [Kn F1].
  assert (T4 : m_tau m4 = tau) by (unfold m4; cbn; rewrite H, E2, E1; reflexivity).
  assert (En1 : n1 = m4).
  { rewrite F1, T4. rewrite T4 in Kn. replace (tau / tau) with 1 by (field; exact Kn).
    assert (O : option_map (fun s => sub_set_tau s (sub_tau s * 1)) (m_goal m4) = m_goal m4) by (destruct (m_goal m4); cbn; [now rewrite sub_tau_one|reflexivity]).
    rewrite O, !sub_tau_one. assert (D : d_set_tau (m_spring m4) (d_tau (m_spring m4) * 1) = m_spring m4) by (destruct (m_spring m4); unfold d_set_tau; cbn; now rewrite Rmult_1_r).
    rewrite D. rewrite <- T4. destruct m4; reflexivity. }
  rewrite En1 in F2. apply set_y0_frame in F2. destruct F2 as (_ & sp' & h & Esp' & Hh & F2).
  assert (S4 : m_spring m4 = sp) by (unfold m4; cbn; rewrite H, E2; reflexivity).
  assert (G4 : m_goal m4 = g') by (unfold m4; cbn; rewrite H; reflexivity).
  assert (R4 : m_req m4 = m_req m2) by (unfold m4; cbn; rewrite H; reflexivity).
  assert (R2 : m_req m2 = m_req m1) by (rewrite E2; reflexivity).
  assert (Q2 : m_goal m2 = g) by (rewrite E2; reflexivity).
  assert (A4 : m_attr m4 = yN) by (unfold m4; cbn; rewrite H; reflexivity).
  assert (Y4 : m_y0 m4 = Some y0) by (unfold m4; cbn; rewrite H, E2; reflexivity).
  assert (sp' = sp).
  { rewrite S4 in Esp'. unfold d_set_y_init in *. destruct (set_y_init (d_dimy (m_spring m1)) _ y0) as [x|] eqn:Ex; [|discriminate]. cbn [bind] in Esp.
    assert (Es : sp = Dsys (d_tau (m_spring m1)) x (d_attr (m_spring m1)) (d_damp (m_spring m1)) (d_spring (m_spring m1)) (d_mass (m_spring m1)) (d_dimy (m_spring m1))) by congruence.
    rewrite Es in Esp' |- *. cbn [d_dimy] in Esp'. rewrite Ex in Esp'. cbn in Esp'. congruence. }
  subst sp'.
  assert (h = g').
  { rewrite G4, R4, R2 in Hh. unfold goal_attr in Eg. rewrite R2, Q2 in Eg. destruct (m_goal m1) as [g0|].
    - destruct (m_req m1) eqn:Rq.
      + rewrite Hg in Eg. assert (Eq : g' = Some g0) by congruence. rewrite Eq in Hh |- *. exact Hh.
      + destruct Hg as (g1 & Hg1 & ->). destruct (sub_set_attr g1 yN) as [g2|] eqn:E4; [|discriminate]. cbn [bind] in Eg.
        assert (Eq : g' = Some g2) by congruence. rewrite Eq in Hh |- *. destruct Hh as (h1 & Hh1 & ->). rewrite (sub_y_twice _ _ _ _ _ Hg1 E4) in Hh1. congruence.
    - rewrite Hg in Eg. assert (Eq : g' = None) by congruence. rewrite Eq in Hh |- *. exact Hh. }
  subst h.
  assert (En2 : n2 = m4).
  { rewrite F2. destruct m4. cbn in *. subst. reflexivity. }
  rewrite En2 in H'. apply set_yattr_frame in H'. destruct H' as (_ & k & Ek & ->).
  assert (k = g').
  { unfold goal_attr in *. rewrite G4, R4 in Ek. rewrite Q2 in Eg. destruct g as [g0|].
    - destruct (m_req m2).
      + assert (Eq : g' = Some g0) by congruence. rewrite Eq in Ek |- *. congruence.
      + destruct (sub_set_attr g0 yN) as [g2|] eqn:E4; [|discriminate]. cbn [bind] in Eg. assert (Eq : g' = Some g2) by congruence. rewrite Eq in Ek |- *.
        rewrite (attr_twice _ _ _ E4) in Ek. cbn in Ek. congruence.
    - assert (Eq : g' = None) by congruence. rewrite Eq in Ek |- *. congruence. }
  subst k. destruct m4. cbn in *. subst. reflexivity.
Qed.

(** ** Rollouts do not depend on the amplitudes and training times *)
Section A.
Variable pf : nat -> list (string * pval) -> R -> res R.
Lemma ana_forget m a t ts s : m_scaling m <> Amplitude -> ana pf (upd_ts (upd_amps m a) t) ts s = ana pf m ts s.
Proof.
  intros Hs. set (m' := upd_ts _ t). assert (Ef : factors m' TypeError = factors m TypeError).
  { unfold factors, m'. cbn. destruct (m_scaling m); [reflexivity|reflexivity|congruence]. }
  assert (El : forall ds sp t x xd, spring_loop m' sp t x xd ds = spring_loop m sp t x xd ds).
  { induction ds as [|d ds IH]; intros sp t0 x xd; [reflexivity|]. cbn [spring_loop].
    change (scale_goal m') with (scale_goal m). change (m_dim m') with (m_dim m). change (m_tau m') with (m_tau m). change (spring_at m') with (spring_at m).
    destruct (vop Rplus x _); [|reflexivity]. cbn [bind]. destruct (scale_goal m _); [|reflexivity]. cbn [bind].
    destruct (fit _ _); [|reflexivity]. cbn [bind]. destruct (spring_at _ _ _ _ _ _); [|reflexivity]. cbn [bind]. destruct (vdiv _ _); [|reflexivity]. cbn [bind]. now rewrite IH. }
  assert (Er : forall ds, spring_rows m' ds = spring_rows m ds).
  { intros [|d ds]; [reflexivity|]. cbn [spring_rows]. change (scale_goal m') with (scale_goal m). change (m_spring m') with (m_spring m). change (spring_at m') with (spring_at m).
    destruct (scale_goal m _); [|reflexivity]. cbn [bind]. destruct (spring_at _ _ _ _ _ _); [|reflexivity]. cbn [bind]. now rewrite El. }
  unfold ana. rewrite Ef.
  change (m_phase m') with (m_phase m). change (m_gating m') with (m_gating m). change (predictions pf m') with (predictions pf m).
  change (m_goal m') with (m_goal m). change (m_damping m') with (m_damping m). change (m_dim m') with (m_dim m). change (m_attr m') with (m_attr m). change (m_spring m') with (m_spring m).
  cbv zeta.
  repeat (match goal with |- bind ?x _ = bind ?x _ => destruct x as [?|]; [cbn [bind]|reflexivity] end;
          try match goal with q : solution |- _ => destruct q; cbv beta iota end).
  rewrite Er. destruct (spring_rows m _); [|reflexivity]. cbn [bind].
  rewrite !(rows5_same m m') by reflexivity. reflexivity.
Qed.
End A.

Section T.
Variable predict_fn : nat -> list (string * pval) -> R -> res R.
Variable train_fn : nat -> list R -> list R -> res (list (string * pval)).
Variable ppf_predict : nat -> list (string * pval) -> mat -> res (list R).
Variable ppf_train : nat -> mat -> list R -> res (list (string * pval)).

Lemma copy_selectable m ns t mk : m_train predict_fn train_fn (m_select m ns) t = Ok mk ->
  yields train_fn (fa_names ns) -> match m_fas m with Some fs => length fs = m_dim m | None => True end ->
  selectable_dmp (pdmp_of mk).
Proof.
  intros Ht [Nd Y] Hf. split.
  - destruct (train_split _ _ _ _ _ Ht) as (m3 & amps & fas' & _ & _ & _ & Em & Hfas).
    unfold fas_of, pdmp_of. cbn [p_fas]. rewrite Em. cbn [m_fas upd_ts upd_fas]. rewrite select_fas in Hfas.
    destruct (select_frame m ns) as (_ & D & _). rewrite D in Hfas.
    destruct (m_fas m) as [fs0|]; cbn [option_map] in Hfas; [|now rewrite Hfas].
    destruct Hfas as (phs & tg & trained & Lt & -> & _ & Hi). rewrite skipn_all2 by (rewrite map_length; lia). rewrite app_nil_r.
    apply Forall_forall. intros f Hin _. apply In_nth_error in Hin. destruct Hin as [i Hin].
    assert (Hil : (i < length trained)%nat) by (apply nth_error_Some; congruence).
    destruct (nth_error fs0 i) as [f0|] eqn:E0; [|apply nth_error_None in E0; lia].
    destruct (Hi i (fa_select f0 (NList (fa_names ns)))) as (ps & Eps & Etr); [lia|now rewrite nth_error_map, E0|].
    assert (Ef : f = Fa ps (Some 1%nat) (f_sel (fa_select f0 (NList (fa_names ns))))) by congruence. rewrite Ef.
    split; [reflexivity|]. exists (fa_names ns). split; [reflexivity|]. split; [exact Nd|]. apply Forall_forall. intros n Hn. exact (Y _ _ _ _ Eps n Hn).
  - destruct (train_frame _ _ _ _ _ Ht) as (_ & D & _ & _ & _ & L & _). cbn. congruence.
Qed.

Lemma Forall2_in_r {A B} (P : A -> B -> Prop) l l' y : Forall2 P l l' -> In y l' -> exists x, In x l /\ P x y.
Proof. induction 1 as [|a b l l' H F IH]; [intros []|]. intros [<-|H']; [exists a; split; [now left|exact H]|]. destruct (IH H') as (x & I1 & I2). exists x. split; [now right|exact I2]. Qed.
Lemma alike_const {A} data tau y0 yN (copies : list A) (g : A -> R) (h h' : A -> list R) : alike data tau y0 yN ->
  Forall2 (fun p c => g c = last (tj_ts (snd p)) 0 /\ h' c = last (mrows (tj_ys (snd p))) []) data copies ->
  Forall (fun c => g c = tau) copies /\ Forall (fun c => h' c = yN) copies.
Proof.
  intros F F2. unfold alike in F. induction F2 as [|p c data copies [E1 E2] F2 IH]; [split; constructor|].
  inversion F as [|? ? (A1 & A2 & A3) F']; subst. destruct (IH F') as [I1 I2]. split; constructor; auto; congruence.
Qed.

Lemma rollout_same c data ns a c' k q t tau y0 yN : c_train predict_fn train_fn ppf_train c data ns a = Ok c' ->
  demo_at data k q t -> interpolates ppf_predict ppf_train (map fst data) ->
  alike data tau y0 yN -> get_y0 (c_dmp c) = y0 -> exp_goal_fits (c_dmp c) -> m_scaling (c_dmp c) <> Amplitude ->
  yields train_fn (fa_names ns) -> match m_fas (c_dmp c) with Some fs => length fs = m_dim (c_dmp c) | None => True end ->
  differ_in_selection predict_fn train_fn (m_select (c_dmp c) ns) data ->
  exists mk, m_train predict_fn train_fn (m_select (c_dmp c) ns) t = Ok mk /\
    forall ts sup, snd (c_ana predict_fn ppf_predict c' (task q) (Some ts) sup) = m_ana predict_fn mk (Some ts) sup.
Proof.
  intros H Hk Hi Al Hy0 Hg Hsc Y Hf Ds.
  pose proof (trained_selectable _ _ _ _ _ _ _ _ H Y Hf) as Sel'.
  destruct (trained_usable _ _ _ _ _ _ _ _ H Hg Sel') as (fs & U).
  destruct (demo_predictions _ _ _ _ _ _ _ _ _ fs k q t H (proj1 U) Hk Hi) as (mk & vk & Ek & P). exists mk.
  assert (Tk : m_train predict_fn train_fn (m_select (c_dmp c) ns) t = Ok mk /\ m_get_params mk = Ok vk).
  { apply (copy_frame predict_fn train_fn (m_select (c_dmp c) ns) (q, t) mk vk). exact Ek. }
  destruct Tk as [Tk Gk]. split; [exact Tk|]. intros ts sup. cbn [m_ana].
  destruct (set_task_ok ppf_predict c' fs U (task q) vk P) as (cS & ES & GS & SS & US).
  unfold c_ana. rewrite ES. cbn [snd bind]. cbn [m_ana].
  (* the DMP of the last demonstration *)
  destruct (c_train_split _ _ _ _ _ _ _ _ H) as (copies & mL & vL & m' & gs & ppf & FC & NC & EL & IL & E3 & _ & _ & _ & Lp & _ & Ec').
  destruct (Forall2_in_r _ _ _ _ FC IL) as ([qL tL] & InL & CL). pose proof (copy_frame _ _ _ _ _ _ CL) as [TL GL]. cbn [snd] in TL.
  assert (AlL : last (tj_ts tL) 0 = tau /\ nth 0 (mrows (tj_ys tL)) [] = y0 /\ last (mrows (tj_ys tL)) [] = yN).
  { unfold alike in Al. rewrite Forall_forall in Al. apply (Al _ InL). }
  assert (Ink : In (q, t) data) by (eapply nth_error_In; exact Hk).
  assert (Alk : last (tj_ts t) 0 = tau /\ nth 0 (mrows (tj_ys t)) [] = y0 /\ last (mrows (tj_ys t)) [] = yN).
  { unfold alike in Al. rewrite Forall_forall in Al. apply (Al _ Ink). }
  destruct AlL as (L1 & L2 & L3). destruct Alk as (K1 & K2 & K3).
  destruct (train_split _ _ _ _ _ TL) as (m3 & aL & fL & _ & _ & S3 & EmL & _). rewrite L1, L2, L3 in S3.
  destruct (train_split _ _ _ _ _ Tk) as (m3k & ak & fk & _ & _ & S3k & Emk & _). rewrite K1, K2, K3 in S3k. assert (m3k = m3) by congruence. subst m3k.
  (* the means *)
  assert (FA : Forall2 (fun p (c : dmp * list R) => m_tau (fst c) = last (tj_ts (snd p)) 0 /\ m_attr (fst c) = last (mrows (tj_ys (snd p))) []) data copies).
  { eapply Forall2_imp; [|exact FC]. intros p [x v] Hp. destruct (copy_frame _ _ _ _ _ _ Hp) as [T _]. destruct (train_frame _ _ _ _ _ T) as (A1 & _ & _ & _ & A5 & _). now split. }
  destruct (alike_const _ _ _ _ _ _ (fun _ => []) _ Al FA) as [C1 C2].
  assert (C3 : Forall (fun c : dmp * list R => get_y0 (fst c) = y0) copies).
  { apply Forall_forall. intros [x v] Hx. destruct (Forall2_in_r _ _ _ _ FC Hx) as (p & _ & Hp). destruct (copy_frame _ _ _ _ _ _ Hp) as [T _].
    destruct (train_frame _ _ _ _ _ T) as (_ & D & X & _). unfold get_y0 in *. cbn [fst]. destruct (select_frame (c_dmp c) ns) as (_ & D1 & X1 & _). rewrite D, X, D1, X1. exact Hy0. }
  assert (NC' : map fst copies <> []) by (destruct copies; [congruence|discriminate]).
  rewrite (avg_const _ tau), (avg_rows_const _ y0), (avg_rows_const _ yN) in E3.
  2,4,6: intros E; apply NC'; destruct (map fst copies); [reflexivity|discriminate].
  2-4: apply Forall_map, Forall_map; first [eapply Forall_impl; [|exact C1]; cbn; congruence|eapply Forall_impl; [|exact C2]; cbn; congruence|eapply Forall_impl; [|exact C3]; cbn; congruence].
  rewrite EmL in E3. apply (setup3_again _ _ _ _ _ _ _ _ _ S3) in E3. rewrite <- EmL in E3.
  assert (Em' : c_dmp c' = mL) by (rewrite Ec'; exact E3). rewrite Em' in SS.
  assert (SelL : selectable_dmp (pdmp_of mL)) by (rewrite <- Em'; exact Sel').
  assert (Selk : selectable_dmp (pdmp_of mk)) by (apply (copy_selectable _ _ _ _ Tk Y Hf)).
  destruct US as (_ & _ & SelS & SyS & _).
  destruct (Ds qL q tL t mL mk vL vk InL Ink CL Ek) as [SF ND].
  destruct (setup3_frame _ _ _ _ _ S3) as (_ & Ln & _ & B1 & B2 & B3 & B4 & B5 & B6 & B7 & B8 & B9 & B10 & Gf).
  destruct (Gf (select_goal_fits _ ns Hg)) as [_ Sy3].
  set (mS := c_dmp cS) in *.
  destruct SS as (Q1 & Q2 & Q3 & Q4 & Q5 & Q6 & Q7 & Q8 & Q9 & Q10 & Q11 & Q12 & Q13 & Q14 & Q15 & Q16).
  unfold m_get_params in GS, Gk. destruct (dmp_get_parts _ _ SelS GS) as (wS & GwS & EvS). destruct (dmp_get_parts _ _ Selk Gk) as (wk & Gwk & Evk).
  assert (SelE : m_sel mk = m_sel mL) by (rewrite Emk, EmL; reflexivity).
  change (p_sel (pdmp_of mS)) with (m_sel mS) in EvS. change (p_sel (pdmp_of mk)) with (m_sel mk) in Evk. rewrite Q5 in EvS. rewrite SelE in Evk.
  assert (AtK : m_attr mk = yN) by (rewrite Emk; exact B5). assert (AtL : m_attr mL = yN) by (rewrite EmL; exact B5).
  assert (Parts : wS = wk /\ m_attr mS = yN).
  { destruct (mem "goal" (m_sel mL)) eqn:Eg.
    - assert (E : (wS ++ m_attr mS = wk ++ m_attr mk)%list) by (cbn [pdmp_of p_attr] in EvS, Evk; congruence).
      assert (Le : length (m_attr mS) = length (m_attr mk)).
      { pose proof (proj2 SelS) as E1. pose proof (proj2 Selk) as E2. cbn [pdmp_of p_attr p_dim] in E1, E2. rewrite E1, E2, Q2, EmL, Emk. reflexivity. }
      assert (Lw : length wS = length wk) by (apply (f_equal (@length R)) in E; rewrite !app_length in E; lia).
      split.
      + apply (f_equal (firstn (length wS))) in E. rewrite firstn_app, Nat.sub_diag, firstn_all, firstn_O, app_nil_r in E.
        rewrite Lw, firstn_app, Nat.sub_diag, firstn_all, firstn_O, app_nil_r in E. exact E.
      + rewrite <- AtK. apply (f_equal (skipn (length wS))) in E. rewrite skipn_app, Nat.sub_diag, skipn_all, skipn_O in E.
        rewrite Lw, skipn_app, Nat.sub_diag, skipn_all, skipn_O in E. exact E.
    - rewrite app_nil_r in EvS, Evk. split; [congruence|]. rewrite <- AtL. apply Q15. intros Hin. apply mem_In in Hin. congruence. }
  destruct Parts as [-> AtS].
  assert (EF : fas_of (pdmp_of mS) = fas_of (pdmp_of mk)) by (apply (fas_determined _ _ _ wk SF Q14 ND (proj1 Selk) (proj1 SelS) Gwk GwS)).
  assert (EG : m_goal mS = m_goal mk).
  { assert (GL' : m_goal mL = m_goal mk) by (rewrite EmL, Emk; reflexivity). rewrite <- GL'.
    unfold same_goal_system in Q16. destruct (m_goal mL) as [[e|s|h|h]|] eqn:E; [|destruct (m_goal mS) as [[]|]; congruence ..].
    destruct (m_goal mS) as [[e'|s|h|h]|] eqn:E'; try congruence. destruct Q16 as (R1 & R2 & R3). f_equal. f_equal.
    assert (Ea' : e_attr e' = yN) by (unfold synced in SyS; rewrite E' in SyS; congruence).
    assert (Ea : e_attr e = yN).
    { unfold synced in Sy3. assert (E0 : m_goal m3 = Some (SubE e)) by (rewrite EmL in E; exact E). rewrite E0 in Sy3. congruence. }
    clear -R1 R2 R3 Ea' Ea. destruct e, e'; cbn in *. congruence. }
  assert (EmS : mS = upd_fas (upd_ts (upd_amps mk (m_amps mL)) (m_ts_train mL)) (m_fas mS)).
  { clear -Q1 Q2 Q3 Q4 Q5 Q6 Q7 Q8 Q9 Q10 Q11 Q12 Q13 EG AtS AtK EmL Emk.
    assert (Ha : m_attr mS = m_attr mk) by congruence.
    assert (Hall : m_tau mL = m_tau mk /\ m_dim mL = m_dim mk /\ m_x_init mL = m_x_init mk /\ m_y0 mL = m_y0 mk /\ m_sel mL = m_sel mk /\ m_spring mL = m_spring mk /\ m_phase mL = m_phase mk /\ m_gating mL = m_gating mk /\ m_damping mL = m_damping mk /\ m_req mL = m_req mk /\ m_scaling mL = m_scaling mk)
      by (rewrite EmL, Emk; cbn; tauto).
    clear EmL Emk. clearbody mS. destruct Hall as (H1 & H2 & H3 & H4 & H5 & H6 & H7 & H8 & H9 & H10 & H11).
    destruct mS, mk, mL. unfold upd_fas, upd_ts, upd_amps. cbn in *. subst. reflexivity. }
  assert (Hfa : forall ts s, ana predict_fn mS ts s = ana predict_fn (upd_ts (upd_amps mk (m_amps mL)) (m_ts_train mL)) ts s).
  { intros ts0 s0. set (mX := upd_ts (upd_amps mk (m_amps mL)) (m_ts_train mL)) in *.
    assert (fas_of (pdmp_of mX) = fas_of (pdmp_of mS)) by (symmetry; exact EF).
    rewrite EmS. clear -H0. set (z := m_fas mS) in *. set (m' := upd_fas mX z).
    assert (Ep : forall p, predictions predict_fn m' p = predictions predict_fn mX p) by (intros p; unfold predictions, m'; rewrite H0; reflexivity).
    unfold ana. change (m_phase m') with (m_phase mX). change (m_gating m') with (m_gating mX). change (factors m') with (factors mX).
    change (m_goal m') with (m_goal mX). change (m_damping m') with (m_damping mX). change (m_dim m') with (m_dim mX). change (m_attr m') with (m_attr mX). change (m_spring m') with (m_spring mX).
    assert (El : forall ds sp t x xd, spring_loop m' sp t x xd ds = spring_loop mX sp t x xd ds).
    { induction ds as [|d ds IH]; intros sp t0 x xd; [reflexivity|]. cbn [spring_loop].
      change (scale_goal m') with (scale_goal mX). change (m_dim m') with (m_dim mX). change (m_tau m') with (m_tau mX). change (spring_at m') with (spring_at mX).
      destruct (vop Rplus x _); [|reflexivity]. cbn [bind]. destruct (scale_goal mX _); [|reflexivity]. cbn [bind].
      destruct (fit _ _); [|reflexivity]. cbn [bind]. destruct (spring_at _ _ _ _ _ _); [|reflexivity]. cbn [bind]. destruct (vdiv _ _); [|reflexivity]. cbn [bind]. now rewrite IH. }
    assert (Er : forall ds, spring_rows m' ds = spring_rows mX ds).
    { intros [|d ds]; [reflexivity|]. cbn [spring_rows]. change (scale_goal m') with (scale_goal mX). change (m_spring m') with (m_spring mX). change (spring_at m') with (spring_at mX).
      destruct (scale_goal mX _); [|reflexivity]. cbn [bind]. destruct (spring_at _ _ _ _ _ _); [|reflexivity]. cbn [bind]. now rewrite El. }
    cbv zeta. 
    assert (Ea : forall phs, mapM (predictions predict_fn m') phs = mapM (predictions predict_fn mX) phs) by (intros phs; induction phs as [|p phs IH]; [reflexivity|]; cbn [mapM]; now rewrite Ep, IH).
    destruct (sub_ana (m_phase mX) ts0) as [[]|]; [|reflexivity]. cbn [bind]. destruct (sub_ana (m_gating mX) ts0) as [[]|]; [|reflexivity]. cbn [bind].
    destruct (mapM one _) as [phs|]; [|reflexivity]. cbn [bind]. destruct (mapM one _) as [gas|]; [|reflexivity]. cbn [bind]. rewrite Ea.
    repeat (match goal with |- bind ?x _ = bind ?x _ => destruct x as [?|]; [cbn [bind]|reflexivity] end;
          try match goal with q : solution |- _ => destruct q; cbv beta iota end).
    rewrite Er. destruct (spring_rows mX _); [|reflexivity]. cbn [bind].
    rewrite !(rows5_same mX m') by reflexivity. reflexivity. }
  rewrite Hfa. apply ana_forget. rewrite Emk. cbn. rewrite B9. destruct (select_frame (c_dmp c) ns) as (_ & _ & _ & _ & _ & Sc & _). rewrite Sc. exact Hsc.
Qed.
End T.
