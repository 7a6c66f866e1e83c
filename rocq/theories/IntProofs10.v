(** Numerical integration of a DMP, row by row. *)
From Coq Require Import String.
From Verif Require Import Base BaseLemmas DynModel DynSpec DynProofs DynProofs5 ParamModel DmpModel DmpSpec DmpSpec2 DmpProofs5 DmpProofs7 DmpProofs13 DmpProofs14 DmpProofs16 DmpProofs20 SchedModel IntSpec IntModel IntProofs3 IntProofs4 IntProofs6 IntProofs8.
Open Scope R_scope.

Lemma integrate_dmp pf method m ts m' xs xds : m_integrate pf method m ts = Ok (m', (xs, xds)) ->
  length xs = length ts /\ length xds = length ts /\
  (exists m1, m_start pf m None = Ok (m1, nth 0 xs [], nth 0 xds [])) /\
  (forall i, (S i < length ts)%nat ->
    int_step (rate_of pf m) (dim_x m) method (nth (S i) ts 0 - nth i ts 0) (nth i xs []) = Ok (nth (S i) xs [], nth (S i) xds [])) /\
  (synced m -> forall cs, replies pf m' cs = fresh_replies pf m cs).
Proof.
  intros E. pose proof E as E'. unfold m_integrate in E'. destruct (m_start pf m None) as [[[m1 x] xd]|] eqn:Es; [|discriminate]. cbn [bind] in E'.
  pose proof (integrate_same pf method m ts m1 x xd Es (start_rate _ _ _ _ _ Es)) as Sm. rewrite E in Sm. unfold same_as in Sm.
  destruct (integrate (rate_of pf m) (dim_x m) method x ts) as [[ys yds]|] eqn:Ei; [|contradiction]. destruct Sm as [Sm T].
  assert (ys = xs) by congruence. assert (yds = xds) by congruence. subst ys yds. clear Sm.
  destruct (integrate_spec _ _ _ _ _ _ _ Ei) as (L1 & L2 & E0 & D0 & HS).
  split; [exact L1|]. split; [exact L2|]. split.
  - exists m1. rewrite E0. do 2 f_equal. rewrite (start_rate _ _ _ _ _ Es) in D0. congruence.
  - split; [exact HS|]. intros Sy cs. now apply replies_touched.
Qed.

(** it returns, whatever the times *)
Lemma integrate_returns pf m me t ts : wf pf m -> synced m -> plain_goal m -> integrable (m_phase m) -> integrable (m_gating m) ->
  match m_goal m with Some g => integrable g | None => True end -> match m_damping m with Some g => integrable g | None => True end ->
  exists m' xs xds, m_integrate pf me m (t :: ts) = Ok (m', (xs, xds)).
Proof.
  intros W Sy Pg I1 I2 I3 I4. destruct (ana_total pf m [0] false W ltac:(discriminate)) as (r & Er & Hs). destruct Hs as (Lr & _ & _ & _ & Hl & _).
  destruct (start_first pf m [] false r W Sy Pg (regular_start m I1 I2 I3 I4) Er) as (m1 & xd & Es & _).
  assert (Lx0 : length (nth 0 (a_xs r) []) = dim_x m) by (apply (Hl 0%nat); cbn; lia).
  destruct (integrate_rows _ _ _ me _ t ts (field_computes pf m W Sy I1 I2 I3 I4) Lx0) as (xs & xds & Ei & _).
  pose proof (integrate_same pf me m (t :: ts) m1 _ xd Es (start_rate _ _ _ _ _ Es)) as Sm. rewrite Ei in Sm. unfold same_as in Sm.
  destruct (m_integrate pf me m (t :: ts)) as [[m' sol]|]; [|contradiction]. destruct Sm as [-> _]. eauto.
Qed.
Lemma integrate_history pf tf ty tau y0 attr fas kw m cs m' : predicts pf tf ->
  0 < tau -> full_kw (length y0) kw -> new_dmp ty tau y0 attr fas kw = Ok m -> sound pf m -> allowed pf tf m cs -> Forall forward cs ->
  apply_all pf tf m cs = Ok m' -> ready m' ->
  forall me ts, ts <> [] -> exists m2 xs xds, m_integrate pf me m' ts = Ok (m2, (xs, xds)).
Proof.
  intros Pr Ht K En S A F E Rd me [|t ts] Hne; [contradiction|]. pose proof (iall_history pf tf cs m m' (iall_new _ _ _ _ _ _ _ Ht K En) F E) as (_ & I1 & I2 & I3 & I4).
  destruct (history_sound pf tf Pr cs m m' S A E) as (S' & _). destruct (igoal_parts m' I4) as (Sy & Pg & I5).
  now apply integrate_returns; [apply sound_wf|..].
Qed.
