(** Proofs about exploration: setting the parameter vector keeps a DMP readable for C++. *)
From Coq Require Import String.
From Verif Require Import Base BaseLemmas DynModel DynSpec DynProofs ParamModel ParamSpec ParamProofs FaModel TrajModel DmpModel DmpSpec DmpProofs DmpProofs2
  DmpProofs8 CppModel CppSpec CppProofs CppProofs2 CppProofs5 ExploreSpec.
Open Scope string_scope.
Open Scope R_scope.

Section E.
Variable ex : R -> R.

Lemma rbfn_defined kinds i ps n c w ph : kinds i = KRbfn -> (0 < n)%nat ->
  lookup ps "centers" = Some (PArr (Arr [n; 1%nat] c)) -> length c = n ->
  lookup ps "widths" = Some (PArr (Arr [n; 1%nat] w)) -> length w = n -> is_column ps n "weights" ->
  (exists v, py_predict ex kinds i ps ph = Ok v) <-> exists row, mapM (one_act ex c w ph) (seq 0 n) = Ok row.
Proof.
  intros Ek Hn Ec Lc Ew Lw (v & Ev & Lv). unfold py_predict. rewrite Ek. unfold rbfn_predict.
  rewrite (py_acts ex false _ n c w) by trivial. cbn [andb].
  destruct (mapM (one_act ex c w ph) (seq 0 n)) as [row|e] eqn:Er; cbn [bind].
  2:{ split; intros [? H]; discriminate. }
  split; intros _; [now exists row|].
  unfold param_arr. rewrite Ev. cbn [bind]. unfold weighted_sum. unfold nrows. cbn [mcols mrows length]. cbn [seq mapM].
  rewrite (mapM_pure _ (fun ii => [nth ii v 0])).
  2:{ intros ii Hi. apply in_seq in Hi. unfold weight_at. cbn [ashape adata]. replace (Nat.ltb ii n) with true by (symmetry; apply Nat.ltb_lt; lia).
      reflexivity. }
  cbn [bind map one]. eexists. reflexivity.
Qed.
Lemma lwr_defined kinds i ps n c w ph : kinds i = KLwr -> (0 < n)%nat ->
  lookup ps "centers" = Some (PArr (Arr [n; 1%nat] c)) -> length c = n ->
  lookup ps "widths" = Some (PArr (Arr [n; 1%nat] w)) -> length w = n -> is_column ps n "slopes" -> is_column ps n "offsets" ->
  (exists v, py_predict ex kinds i ps ph = Ok v) <-> (n = 1%nat \/ exists row, mapM (one_act ex c w ph) (seq 0 n) = Ok row).
Proof.
  intros Ek Hn Ec Lc Ew Lw (v & Ev & Lv) (o & Eo & Lo). unfold py_predict. rewrite Ek. unfold lwr_predict, get_lines, param_arr. rewrite Ev, Eo. cbn [bind ashape adata].
  rewrite chunks_one by trivial. unfold nrows at 1. cbn [mcols mrows]. rewrite colm_length, Lv, Lo.
  replace (Nat.ltb n n) with false by (symmetry; apply Nat.ltb_ge; lia). cbn [Nat.eqb negb andb bind].
  rewrite (py_acts ex true _ n c w) by trivial. cbn [andb].
  destruct (Nat.eqb_spec n 1) as [->|E].
  - cbn [bind]. split; [now left|]. intros _. eexists. reflexivity.
  - destruct (mapM (one_act ex c w ph) (seq 0 n)) as [row|e] eqn:Er; cbn [bind].
    2:{ split; [intros [? H]; discriminate|intros [H|[? H]]; [congruence|discriminate]]. }
    split; [right; now exists row|]. intros _.
    unfold mtimes. cbn [mcols mtab]. rewrite Nat.eqb_refl. cbn [bind]. eexists. reflexivity.
Qed.

(** ** one approximator *)
Lemma column_kept f f' n name : same_but (fa_selection f) f f' -> selectable f' -> is_column (f_model f) n name -> is_column (f_model f') n name.
Proof.
  intros (_ & Es & _ & Hfr & Hsh) (_ & sel & Esel & _ & Hall) (l & El & Ll).
  specialize (Hsh name). rewrite El in Hsh. destruct Hsh as ([s d] & El' & Sh). cbn [ashape] in Sh. subst s.
  destruct (in_dec string_dec name (fa_selection f)) as [Hin|Hout].
  - rewrite Forall_forall in Hall. destruct (Hall name) as (a & Ea & _ & La).
    { unfold fa_selection in Hin. rewrite <- Es, Esel in Hin. exact Hin. }
    rewrite El' in Ea. injection Ea as <-. cbn [adata ashape] in La. exists d. split; [exact El'|]. rewrite La. cbn. lia.
  - exists l. split; [|exact Ll]. rewrite (Hfr name Hout). exact El.
Qed.
Lemma untouched f f' name : same_but (fa_selection f) f f' -> incl (fa_selection f) movement_names -> ~ In name movement_names ->
  lookup (f_model f') name = lookup (f_model f) name.
Proof. intros (_ & _ & _ & Hfr & _) Hi Hn. apply Hfr. intros H. now apply Hn, Hi. Qed.
Lemma fa_kept kinds i f f' : same_but (fa_selection f) f f' -> selectable f' -> incl (fa_selection f) movement_names ->
  fa_portable (kinds i) f ->
  fa_portable (kinds i) f' /\ forall ph, (exists v, py_predict ex kinds i (f_model f) ph = Ok v) -> exists v, py_predict ex kinds i (f_model f') ph = Ok v.
Proof.
  intros S Hs Hi (_ & n & Hn & H).
  assert (T' : is_trained f' = true) by (now destruct Hs).
  assert (Uc : lookup (f_model f') "centers" = lookup (f_model f) "centers") by (apply untouched; trivial; cbn; intuition discriminate).
  assert (Uw : lookup (f_model f') "widths" = lookup (f_model f) "widths") by (apply untouched; trivial; cbn; intuition discriminate).
  destruct (kinds i) eqn:Ek; [| |contradiction].
  - assert (H' : Forall (is_column (f_model f') n) ["centers"; "widths"; "weights"]).
    { revert H. apply Forall_impl. intros a. now apply column_kept. }
    split; [split; [exact T'|]; exists n; now split|]. intros ph.
    inversion H as [|? ? (c & Ec & Lc) H1]; subst. inversion H1 as [|? ? (w & Ew & Lw) H2]; subst. inversion H2 as [|? ? H3 _]; subst.
    inversion H' as [|? ? _ G1]; subst. inversion G1 as [|? ? _ G2]; subst. inversion G2 as [|? ? G3 _]; subst.
    rewrite (rbfn_defined kinds i (f_model f) (length c) c w), (rbfn_defined kinds i (f_model f') (length c) c w); trivial; congruence.
  - assert (H' : Forall (is_column (f_model f') n) ["centers"; "widths"; "slopes"; "offsets"]).
    { revert H. apply Forall_impl. intros a. now apply column_kept. }
    split; [split; [exact T'|]; exists n; now split|]. intros ph.
    inversion H as [|? ? (c & Ec & Lc) H1]; subst. inversion H1 as [|? ? (w & Ew & Lw) H2]; subst. inversion H2 as [|? ? H3 H4]; subst.
    inversion H4 as [|? ? H5 _]; subst.
    inversion H' as [|? ? _ G1]; subst. inversion G1 as [|? ? _ G2]; subst. inversion G2 as [|? ? G3 G4]; subst. inversion G4 as [|? ? G5 _]; subst.
    rewrite (lwr_defined kinds i (f_model f) (length c) c w), (lwr_defined kinds i (f_model f') (length c) c w); trivial; congruence.
Qed.
Lemma forall2_nth {A B} (P : A -> B -> Prop) l l' : Forall2 P l l' -> forall i b, nth_error l' i = Some b -> exists a, nth_error l i = Some a /\ P a b.
Proof.
  induction 1 as [|a b l l' H _ IH]; intros i b' Hb; [now destruct i|]. destruct i as [|i]; cbn in *; [|now apply IH].
  exists a. split; congruence.
Qed.
Lemma forall2_len {A B} (P : A -> B -> Prop) l l' : Forall2 P l l' -> length l' = length l.
Proof. induction 1; cbn; congruence. Qed.

(** ** the whole DMP *)
Variable kinds : nat -> fa_kind.
Lemma explore_good n m v : good ex kinds n m -> selectable_dmp (pdmp_of m) -> explorable m -> dmp_size (pdmp_of m) = Ok (length v) ->
  exists m', m_set_params m v = (m', Ok tt) /\ m_get_params m' = Ok v /\ good ex kinds n m' /\
    selectable_dmp (pdmp_of m') /\ explorable m' /\ dmp_size (pdmp_of m') = Ok (length v).
Proof.
  intros (W & Po & U & Ht & Hn) Hsel Hex Hv.
  pose proof Po as (Ha & Hr & Hd & (y0 & Ey & Ly & Ei & t & a & al & Eg & La) & Hdim & Htau & Hdk & Em & Hp & Hga & Ham & fs & Ef & Lf & Hf).
  assert (Hgoal : match m_goal m with Some (SubE e) => length (e_init e) = m_dim m | _ => True end) by (rewrite Eg; exact Ly).
  destruct (set_params_ok m Hsel Hgoal v Hv) as (fs' & rest & E & m' & Em' & H1 & H2). exists m'. split; [exact Em'|].
  destruct (dmp_set_ok _ v Hsel Hv) as (p' & Ep & Gp & Sp & Hp' & Sf & Es & Ed & _).
  assert (Hpd : pdmp_of m' = p').
  { unfold dmp_set in Ep. rewrite Hv, Nat.eqb_refl, E in Ep. cbn [p_fas p_sel p_attr p_dim pdmp_of] in Ep.
    destruct (mem "goal" (m_sel m)).
    - destruct (H2 eq_refl) as (Hl & g & Eg' & ->). unfold set_attr in Ep. cbn [p_dim p_fas p_sel] in Ep.
      rewrite Hl, Nat.eqb_refl in Ep. injection Ep as <-. reflexivity.
    - rewrite (H1 eq_refl). injection Ep as <-. reflexivity. }
  assert (Ef' : m_fas m' = Some fs').
  { destruct (mem "goal" (m_sel m)); [destruct (H2 eq_refl) as (_ & g & _ & ->)|rewrite (H1 eq_refl)]; cbn; rewrite Ef; reflexivity. }
  assert (Dm' : m_dim m' = m_dim m).
  { destruct (mem "goal" (m_sel m)); [destruct (H2 eq_refl) as (_ & g & _ & ->)|rewrite (H1 eq_refl)]; reflexivity. }
  assert (Efp : fas_of p' = fs') by (rewrite <- Hpd; unfold fas_of, pdmp_of; cbn [p_fas]; now rewrite Ef').
  assert (Efo : fas_of (pdmp_of m) = fs) by (unfold fas_of, pdmp_of; cbn [p_fas]; now rewrite Ef).
  rewrite Efp, Efo in Sf. unfold same_fas in Sf. pose proof (forall2_len _ _ _ Sf) as Lfs.
  assert (Hsel' : forall f', In f' fs' -> is_trained f' = true -> selectable f').
  { intros f' Hin. destruct Hp' as [F _]. rewrite Efp in F. rewrite Forall_forall in F. now apply F. }
  (* every trained approximator of the result comes from a trained one *)
  assert (Back : forall i f', nth_error fs' i = Some f' -> is_trained f' = true -> exists f, nth_error fs i = Some f /\ is_trained f = true /\
      same_but (fa_selection f) f f' /\ (i < m_dim m)%nat /\ incl (fa_selection f) movement_names).
  { intros i f' Hi T. destruct (forall2_nth _ _ _ Sf i f' Hi) as (f & Hi' & S & Ut). exists f. split; [exact Hi'|].
    assert (T0 : is_trained f = true) by (destruct (is_trained f) eqn:E0; [reflexivity|rewrite (Ut eq_refl) in T; congruence]).
    split; [exact T0|]. split; [exact S|]. apply (Hex fs Ef i f Hi' T0). }
  pose proof W as (W1 & W2 & W3 & W4 & W5 & W6 & W7 & W8 & W9 & W10 & W11 & W12 & W13 & W14 & W15 & W16 & W17 & W18 & W19).
  assert (Wf : fas_ok (py_predict ex kinds) m').
  { unfold fas_ok in *. rewrite Ef', Dm'. rewrite Ef in W19. destruct W19 as [Wl Wp]. split.
    - right. lia.
    - intros i f' Hi T ph. destruct (Back i f' Hi T) as (f & Hi' & T0 & S & Hlt & Hinc).
      destruct (fa_kept kinds i f f' S (Hsel' f' (nth_error_In _ _ Hi) T) Hinc (Hf i f Hi' Hlt)) as [_ K].
      apply K. now apply (Wp i f). }
  assert (Pf : forall i f', nth_error fs' i = Some f' -> (i < m_dim m)%nat -> fa_portable (kinds i) f').
  { intros i f' Hi Hlt. destruct (forall2_nth _ _ _ Sf i f' Hi) as (f & Hi' & S & Ut).
    pose proof (Hf i f Hi' Hlt) as Pof. assert (T0 : is_trained f = true) by (now destruct Pof).
    destruct (Hex fs Ef i f Hi' T0) as [_ Hinc].
    assert (T : is_trained f' = true).
    { destruct S as (Sd & _). unfold is_trained in *. now rewrite Sd. }
    apply (fa_kept kinds i f f' S (Hsel' f' (nth_error_In _ _ Hi) T) Hinc Pof). }
  split. { unfold m_get_params. now rewrite Hpd. }
  assert (Rest : exists y g, length y = m_dim m /\ (exists a', g = Some (SubE (Esys t y0 a' (PScal al))) /\ length a' = m_dim m) /\
             m' = Dmp (m_tau m) (m_dim m) (m_x_init m) (m_y0 m) y (Some fs') (m_sel m) (m_spring m) g (m_phase m) (m_gating m)
                      (m_damping m) (m_req m) (m_scaling m) (m_amps m) (m_ts_train m)).
  { destruct (mem "goal" (m_sel m)).
    - destruct (H2 eq_refl) as (Hl & g & Eg' & ->). exists (firstn (m_dim m) rest), g. split; [exact Hl|]. split.
      + unfold goal_attr in Eg'. rewrite Eg, Hr in Eg'. cbn [sub_set_attr e_init] in Eg'. rewrite Hl, Ly, Nat.eqb_refl in Eg'. cbn in Eg'.
        exists (firstn (m_dim m) rest). split; [congruence|exact Hl].
      + unfold upd_attr, upd_fas. cbn. now rewrite Ef.
    - rewrite (H1 eq_refl). exists (m_attr m), (m_goal m). split; [exact Ha|]. split; [exists a; now split|]. unfold upd_fas. now rewrite Ef. }
  destruct Rest as (y & g & Ly' & (a' & -> & La') & Hm').
  assert (Good : good ex kinds n m').
  { split; [|split; [|split; [|split]]].
    - rewrite Hm' in Wf |- *. unfold wf.
      cbn [m_tau m_attr m_dim m_y0 m_req m_scaling m_amps m_spring m_goal m_damping m_phase m_gating].
      rewrite Eg in W13. cbn [opt_ok] in W13 |- *. destruct W13 as [[Wa [Wb Wc]] Wd].
      repeat (split; [first [assumption | (split; [split; [exact Wa|split; [cbn; lia|exact Wc]]|exact Wd])]|]). exact Wf.
    - rewrite Hm'. unfold portable. cbn [m_tau m_attr m_dim m_y0 m_req m_scaling m_amps m_spring m_goal m_damping m_phase m_gating m_fas].
      split; [exact Ly'|]. split; [exact Hr|]. split; [exact Hd|].
      split. { exists y0. split; [exact Ey|]. split; [exact Ly|]. split; [exact Ei|]. exists t, a', al. now split. }
      split; [exact Hdim|]. split; [exact Htau|]. split; [exact Hdk|]. split; [exact Em|]. split; [exact Hp|]. split; [exact Hga|]. split; [exact Ham|].
      exists fs'. split; [reflexivity|]. split; [lia|exact Pf].
    - rewrite Hm'. unfold uniform in *. cbn [m_tau m_goal m_phase m_gating]. rewrite Eg in U. exact U.
    - rewrite Hm'. exact Ht.
    - congruence. }
  split; [exact Good|]. rewrite Hpd. split; [exact Hp'|]. split; [|exact Sp].
  intros fs0 E0 i f' Hi T. rewrite Ef' in E0. injection E0 as <-. destruct (Back i f' Hi T) as (f & Hi' & T0 & (_ & Sel & _) & Hlt & Hinc).
  rewrite Dm', Sel. split; [exact Hlt|exact Hinc].
Qed.
End E.
