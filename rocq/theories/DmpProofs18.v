(** Proofs about DMPs: moving the goal. *)
From Coq Require Import String.
From Verif Require Import Base BaseLemmas DynModel DynSpec DynProofs DynProofs6 ParamModel ParamSpec ParamProofs TrajModel DmpModel DmpSpec DmpProofs DmpProofs2 DmpProofs3 DmpProofs4 DmpProofs5 DmpProofs7 DmpProofs8 DmpProofs9 DmpProofs12 DmpProofs13 DmpProofs14 DmpProofs16 DmpProofs17.
Open Scope R_scope.

Section S.
Variable pf : nat -> list (string * pval) -> R -> res R.
Variable tf : nat -> list R -> list R -> res (list (string * pval)).

Lemma wf_attr_len m : wf pf m -> match m_goal m with Some (SubE e) => length (e_init e) = m_dim m | _ => True end.
Proof.
  intros (_ & _ & _ & _ & _ & _ & _ & _ & _ & _ & _ & _ & Og & _). destruct (m_goal m) as [[e|s|h|h]|]; trivial. now destruct Og.
Qed.
Lemma move_goal m y : wf pf m -> movable m -> length y = m_dim m ->
  exists m', set_yattr m y = Ok m' /\ m_attr m' = y /\ wf pf m' /\ tracks pf m' y.
Proof.
  intros W Mo Hl. destruct (set_yattr_sound pf m y (wf_sound pf m W) Hl) as (g & Eg & E & S'). eexists. split; [exact E|].
  destruct (movable_set m y _ Mo E) as (F & A & _). split; [exact A|].
  assert (W' : wf pf (upd_attr m y g)) by (apply sound_wf; [exact S'|exact (wf_ready pf m W)]). split; [exact W'|].
  pose proof (follows_tracks pf _ W' F) as T. rewrite A in T. exact T.
Qed.
Lemma move_goal_params m v : predicts pf tf -> wf pf m -> movable m -> selectable_dmp (pdmp_of m) -> mem "goal" (m_sel m) = true ->
  dmp_size (pdmp_of m) = Ok (length v) ->
  exists m', m_set_params m v = (m', Ok tt) /\ (m_dim m <= length v)%nat /\ m_attr m' = skipn (length v - m_dim m) v /\
    wf pf m' /\ tracks pf m' (m_attr m').
Proof.
  intros Pr W Mo Hs Hg Hv. destruct (set_params_ok m Hs (wf_attr_len m W) v Hv) as (fs & rest & Ef & m' & E & _ & Hm).
  destruct (Hm Hg) as (Hl & g & Eg & Em). exists m'. split; [exact E|].
  destruct Hs as [F L]. destruct (fas_get_size _ F) as (w & Gw & Sw).
  pose proof Hv as Hv'. unfold dmp_size in Hv. rewrite Sw in Hv. cbn [bind] in Hv. injection Hv as Hv. cbn [p_sel p_dim pdmp_of] in Hv.
  assert (Hv2 : (length w + m_dim m = length v)%nat) by (now rewrite Hg in Hv).
  destruct (fas_set_ok _ v (length w) F Sw) as (fs' & E' & _); [lia|]. rewrite Ef in E'. injection E' as <- ->.
  split; [lia|].
  assert (Er : firstn (m_dim m) (skipn (length w) v) = skipn (length v - m_dim m) v).
  { replace (length v - m_dim m)%nat with (length w) by lia. apply firstn_all2. rewrite skipn_length. lia. }
  split; [subst m'; exact Er|].
  destruct (params_sound pf tf Pr m v m' (wf_sound pf m W) E) as (S' & _ & R').
  pose proof (sound_wf pf m' S' (R' (wf_ready pf m W))) as W'. split; [exact W'|].
  apply follows_tracks; [exact W'|].
  assert (Eset : set_yattr (upd_fas m (option_map (fun _ => fs) (m_fas m))) (firstn (m_dim m) (skipn (length w) v)) = Ok m').
  { unfold set_yattr. cbn [m_dim upd_fas]. rewrite Hl, Nat.eqb_refl. unfold goal_attr in *. cbn [m_goal m_req upd_fas] in *. rewrite Eg. cbn [bind]. now rewrite Em. }
  exact (proj1 (movable_set (upd_fas m (option_map (fun _ => fs) (m_fas m))) _ _ Mo Eset)).
Qed.

(** the default systems of all types but one can be moved *)
Lemma default_movable ty tau y0 attr fas kw m : 0 < tau -> full_kw (length y0) kw ->
  match ty with Sct23 true _ => False | _ => True end ->
  new_dmp ty tau y0 attr fas kw = Ok m -> movable m.
Proof.
  intros Ht (K1 & K2 & K3 & K4 & K5 & _) Hty E. unfold new_dmp in E. rewrite K1, K2, K3, K4, K5 in E. cbn [opt] in E. cbv zeta in E.
  destruct ty as [| | |ns da]; cbn [default_subs] in E.
  - injection E as <-. reflexivity.
  - destruct (for_gating tau 0.1 1); [|discriminate]. cbn [bind] in E. injection E as <-. intros i _. cbn. apply Rdiv_lt_0_compat; lra.
  - destruct (for_gating tau 0.1 1); [|discriminate]. cbn [bind] in E. injection E as <-. intros i _. cbn. apply Rdiv_lt_0_compat; lra.
  - destruct ns; [contradiction|].
    assert (H : forall sp ga ph d fa, movable (Dmp tau (length y0) ga None attr fa [] sp (Some (SubR
       (Rsys tau (repeat 0 (length y0)) (PVec (repeat 1 (length y0))) (PScal 0.3) (PScal 10) (PScal 1) None))) ph ph d true NoScaling None None)).
    { intros. intros i Hi. cbn in *. split; [|apply Rdiv_lt_0_compat; lra].
      rewrite (nth_indep _ 0 1) by (now rewrite repeat_length). apply nth_repeat. }
    destruct da.
    + destruct (full _ _); [|discriminate]. cbn [bind] in E. injection E as <-. unfold movable. cbn. intros i Hi. exact (H (new_spring tau y0 attr (PScal 1) None (PScal 1)) [] (SubT (new_time tau true)) None None i Hi).
    + cbn [bind] in E. injection E as <-. unfold movable. cbn. intros i Hi. exact (H (new_spring tau y0 attr (PScal 1) None (PScal 1)) [] (SubT (new_time tau true)) None None i Hi).
Qed.

(** ... but not those of NO_SCALING: the goal system still tends to the original goal *)
Lemma no_scaling_stuck da tau y0 attr y m m' : 0 < tau -> length attr = length y0 ->
  (forall i, (i < length y0)%nat -> nth i y0 0 <> nth i attr 0) ->
  new_dmp (Sct23 true da) tau y0 attr None no_kw = Ok m -> set_yattr m y = Ok m' ->
  tracks pf m' attr /\ m_attr m' = y /\ length y = length attr.
Proof.
  intros Ht Hl Hd E E'.
  destruct (new_dmp_ok pf (Sct23 true da) tau y0 attr None no_kw Ht Hl) as (m1 & E1 & S & Sy & Pl & D1 & T1 & A1 & Y1 & F1 & R1 & Sc & Am & _).
  { unfold full_kw, no_kw. cbn. repeat split; trivial. }
  { exact Hd. } { trivial. }
  rewrite E in E1. injection E1 as <-.
  assert (W : wf pf m).
  { apply sound_wf; [exact S|]. split; intros H; [|rewrite Sc in H; discriminate]. rewrite R1, Sc in H. destruct H; discriminate. }
  assert (Eg : m_goal m = Some (SubR (Rsys tau y0 (PVec attr) (PScal 0.3) (PScal 10) (PScal 1) None))).
  { unfold new_dmp, default_subs, no_kw in E. cbn in E. destruct da; cbn in E; injection E as <-; reflexivity. }
  assert (Em' : m' = upd_attr m y (m_goal m) /\ length y = m_dim m).
  { unfold set_yattr in E'. destruct (Nat.eqb_spec (length y) (m_dim m)); [|discriminate]. unfold goal_attr in E'. rewrite Eg, R1 in E'. cbn in E'.
    injection E' as <-. rewrite Eg. auto. }
  destruct Em' as [Em' Ly]. split; [|subst m'; split; [reflexivity|lia]].
  assert (Fo : follows m).
  { unfold follows. rewrite Eg, R1, A1. cbn. intros i Hi. split; [reflexivity|]. apply Rdiv_lt_0_compat; lra. }
  destruct (set_yattr_sound pf m y S Ly) as (g & Eg' & E2 & S'). rewrite E' in E2. injection E2 as E2. clear E2.
  assert (W' : wf pf m').
  { apply sound_wf; [|split; intros H; subst m'; cbn in *; [|rewrite Sc in H; discriminate]; rewrite R1, Sc in H; destruct H; discriminate].
    unfold goal_attr in Eg'. rewrite Eg, R1 in Eg'. cbn in Eg'. injection Eg' as <-. rewrite Em', Eg. exact S'. }
  intros i eps Hi He. rewrite <- A1.
  destruct (follows_tracks pf m W Fo i eps ltac:(subst m'; exact Hi) He) as [T HT]. exists T. intros ts sup r k Hr Hk Hkt.
  destruct (ana_total pf m ts sup W) as (r0 & E0 & Hs0); [destruct ts; [cbn in Hk; lia|discriminate]|].
  specialize (HT ts sup r0 k E0 Hk Hkt).
  destruct (ana_spec' pf m' ts sup r W' Hr ltac:(lia)) as (_ & _ & _ & _ & _ & _ & _ & HG' & _).
  destruct Hs0 as (_ & _ & _ & _ & _ & _ & _ & HG & _). rewrite Eg in HG. rewrite Em' in HG'. cbn [m_goal upd_attr m_dim] in HG'. rewrite Eg in HG'.
  destruct HG as (ps & pds & P1 & P2). destruct HG' as (ps' & pds' & P1' & P2'). rewrite P1 in P1'. injection P1' as <- <-.
  assert (Hi' : (i < m_dim m)%nat) by (subst m'; exact Hi).
  destruct (P2 k i Hk Hi') as [G1 _]. destruct (P2' k i Hk Hi') as [G2 _].
  rewrite Em'. unfold target in *. cbn [m_req upd_attr m_dim]. rewrite R1 in *. cbn [requires_scaling negb] in *. rewrite G2, <- G1. exact HT.
Qed.
(** two different goals cannot both be reached *)
Lemma tracks_unique m y y' : wf pf m -> (forall i, (i < m_dim m)%nat -> tracks pf m y -> tracks pf m y' -> nth i y 0 = nth i y' 0).
Proof.
  intros W i Hi H1 H2. destruct (Req_dec (nth i y 0) (nth i y' 0)) as [E|N]; [exact E|exfalso].
  set (d := Rabs (nth i y 0 - nth i y' 0)). assert (Hd : 0 < d) by (apply Rabs_pos_lt; lra).
  destruct (H1 i (d / 2) Hi ltac:(lra)) as [T1 F1]. destruct (H2 i (d / 2) Hi ltac:(lra)) as [T2 F2].
  destruct (ana_total pf m [Rmax T1 T2] false W ltac:(discriminate)) as (r & Er & _).
  specialize (F1 _ _ r 0%nat Er ltac:(cbn; lia) (Rmax_l _ _)). specialize (F2 _ _ r 0%nat Er ltac:(cbn; lia) (Rmax_r _ _)).
  set (x := target m _ i) in *. rewrite Rabs_minus_sym in F1.
  pose proof (Rabs_triang (nth i y 0 - x) (x - nth i y' 0)) as Tr. replace (nth i y 0 - x + (x - nth i y' 0)) with (nth i y 0 - nth i y' 0) in Tr by ring.
  fold d in Tr. lra.
Qed.
End S.
