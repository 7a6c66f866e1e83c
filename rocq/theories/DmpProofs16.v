(** Proofs about DMPs: histories of changes, fresh DMPs, setters, time steps of rollouts. *)
From Coq Require Import String.
From Verif Require Import Base BaseLemmas DynModel DynSpec DynProofs DynProofs6 ParamModel ParamSpec ParamProofs TrajModel DmpModel DmpSpec DmpProofs DmpProofs2 DmpProofs3 DmpProofs4 DmpProofs5 DmpProofs7 DmpProofs8 DmpProofs9 DmpProofs13 DmpProofs14.
Open Scope R_scope.

(** ** what setting a parameter vector does to the function approximators *)
Lemma fas_set_each fs : forall vs fs' rest, fas_set fs vs = (fs', Ok rest) -> length fs' = length fs /\
  forall i f', nth_error fs' i = Some f' -> exists f, nth_error fs i = Some f /\ is_trained f' = is_trained f /\
    (f' = f \/ exists w, fa_set f w = (f', Ok tt)).
Proof.
  induction fs as [|f fs IH]; intros vs fs' rest E; cbn [fas_set] in E.
  - injection E as <- _. split; [reflexivity|]. intros [|i] f' H; discriminate.
  - destruct (is_trained f) eqn:Et.
    + destruct (fa_size f) as [n|]; [|discriminate]. destruct (fa_set f (firstn n vs)) as [f1 [u|e]] eqn:Ef; [|discriminate].
      destruct (fas_set fs (skipn n vs)) as [fs2 r] eqn:E2. injection E as <- ->. destruct (IH _ _ _ E2) as [L H]. split; [cbn; now rewrite L|].
      intros [|i] f' Hf; [|now apply H]. cbn in Hf. injection Hf as <-. exists f. split; [reflexivity|].
      pose proof (is_trained_set f (firstn n vs)) as Ht. rewrite Ef in Ht. split; [exact Ht|]. right. exists (firstn n vs). now destruct u.
    + destruct (fas_set fs vs) as [fs2 r] eqn:E2. injection E as <- ->. destruct (IH _ _ _ E2) as [L H]. split; [cbn; now rewrite L|].
      intros [|i] f' Hf; [|now apply H]. cbn in Hf. injection Hf as <-. exists f. split; [reflexivity|]. split; [reflexivity|now left].
Qed.

Section S.
Variable pf : nat -> list (string * pval) -> R -> res R.
Variable tf : nat -> list R -> list R -> res (list (string * pval)).
Hypothesis Pr : predicts pf tf.

Lemma sound_fas m fs : sound pf m ->
  (forall old, m_fas m = Some old -> exists new, fs = Some new /\ length new = length old /\
     forall i f', nth_error new i = Some f' -> exists f, nth_error old i = Some f /\ is_trained f' = is_trained f /\
       ((forall ph, exists v, pf i (f_model f) ph = Ok v) -> forall ph, exists v, pf i (f_model f') ph = Ok v)) ->
  (m_fas m = None -> fs = None) -> sound pf (upd_fas m fs).
Proof.
  intros [S0 S1] H Hn. split; [exact S0|]. intros y a Hy Ha.
  destruct (S1 y a Hy Ha) as (A1 & A2 & A3 & A4 & A5 & A6 & A7 & A8 & A9 & A10 & A11 & A12 & A13 & A14 & A15 & A16 & A17 & A18 & A19).
  unfold wf, with_y0_amps, upd_fas, fas_ok in *. cbn in *. spl.
  destruct (m_fas m) as [old|]; [|now rewrite Hn]. destruct (H _ eq_refl) as (new & -> & L & Hf). destruct A19 as [B1 B2]. split.
  - destruct B1 as [B1|B1]; [left; subst old; now destruct new|right; lia].
  - intros i f' Hi Ht ph. destruct (Hf i f' Hi) as (f & E & Et & Hp). apply Hp. intros ph'. apply (B2 i f E). congruence.
Qed.
Lemma sound_sel m s : sound pf m -> sound pf (upd_sel m s).
Proof. exact (fun x => x). Qed.
Lemma select_sound m n : sound pf m -> sound pf (m_select m n) /\ m_dim (m_select m n) = m_dim m /\ (ready m -> ready (m_select m n)).
Proof.
  intros S. unfold m_select. split; [|split; [reflexivity|exact (fun x => x)]]. apply sound_sel. cbn. apply sound_fas; [trivial| |].
  - intros old ->. cbn. eexists. split; [reflexivity|]. split; [apply map_length|]. intros i f' Hi.
    rewrite nth_error_map in Hi. destruct (nth_error old i) as [f|]; [|discriminate]. injection Hi as <-. exists f. repeat split. trivial.
  - now intros ->.
Qed.
Lemma params_sound m v m' : sound pf m -> m_set_params m v = (m', Ok tt) -> sound pf m' /\ m_dim m' = m_dim m /\ (ready m -> ready m').
Proof.
  intros S E. unfold m_set_params, dmp_set in E. destruct (dmp_size (pdmp_of m)) as [n|]; [|discriminate].
  destruct (Nat.eqb (length v) n); [|discriminate]. destruct (fas_set (fas_of (pdmp_of m)) v) as [fs [rest|]] eqn:Ef; [|discriminate].
  cbn [p_fas p_sel p_attr p_dim pdmp_of] in E.
  assert (S1 : sound pf (upd_fas m (option_map (fun _ => fs) (m_fas m)))).
  { destruct (fas_set_each _ _ _ _ Ef) as [L H]. apply sound_fas; [trivial| |now intros ->]. intros old Eo.
    rewrite Eo. cbn. exists fs. split; [reflexivity|]. unfold fas_of, pdmp_of in L, H. cbn [p_fas] in L, H. rewrite Eo in L, H. split; [exact L|].
    intros i f' Hi. destruct (H i f' Hi) as (f & E1 & E2 & E3). exists f. split; [trivial|]. split; [trivial|]. intros Hp ph.
    destruct E3 as [->|[w Ew]]; [apply Hp|]. destruct Pr as [P1 _]. exact (P1 i f w f' ph Hp Ew). }
  destruct (mem "goal" (m_sel m)).
  - unfold set_attr in E. cbn [p_dim p_fas p_sel p_attr] in E. destruct (Nat.eqb_spec (length (firstn (m_dim m) rest)) (m_dim m)) as [Hl|]; [|discriminate].
    cbn [p_fas p_attr] in E. destruct (set_yattr_sound pf _ _ S1 Hl) as (g & Eg & Ey & Sy).
    rewrite Eg in E. injection E as <-. split; [exact Sy|]. split; [reflexivity|exact (fun x => x)].
  - injection E as <-. split; [exact S1|]. split; [reflexivity|exact (fun x => x)].
Qed.

Lemma tau_nz m : sound pf m -> m_tau m <> 0.
Proof. intros [_ S]. destruct (S (repeat 0 (m_dim m)) (repeat 0 (m_dim m)) (repeat_length _ _) (repeat_length _ _)) as [H _]. exact H. Qed.

(** one change, and a history of changes *)
Lemma change_sound m c m' : sound pf m -> allowed1 m c -> apply1 pf tf m c = Ok m' ->
  sound pf m' /\ m_dim m' = m_dim m /\ (ready m -> ready m').
Proof.
  intros S A E. destruct c as [t|y|y| |n|v|t|c]; cbn [apply1 allowed1] in *.
  - destruct (set_tau_sound pf m t S (tau_nz m S) A) as (m1 & E1 & S1 & _). rewrite E in E1. injection E1 as <-. split; [trivial|].
    unfold set_tau in E. destruct (Req_EM_T _ _); [discriminate|]. injection E as <-. split; [reflexivity|exact (fun x => x)].
  - destruct (Nat.eq_dec (length y) (m_dim m)) as [Hl|Hl].
    + destruct (set_y0_sound pf m y S Hl A) as (m1 & E1 & S1 & Y1 & _ & D1 & _). rewrite E in E1. injection E1 as <-.
      split; [trivial|]. split; [trivial|]. intros [R1 R2]. split; [congruence|].
      unfold set_y0 in E. destruct (Nat.eqb _ _); [|discriminate]. destruct (d_set_y_init _ _); [|discriminate]. cbn [bind] in E.
      destruct (match m_goal m with Some g => _ | None => _ end); [|discriminate]. cbn [bind] in E. injection E as <-. exact R2.
    + unfold set_y0 in E. apply Nat.eqb_neq in Hl. rewrite Hl in E. discriminate.
  - destruct (Nat.eq_dec (length y) (m_dim m)) as [Hl|Hl].
    + destruct (set_yattr_sound pf m y S Hl) as (g & Eg & E1 & S1). rewrite E in E1. injection E1 as ->. split; [trivial|]. split; [reflexivity|exact (fun x => x)].
    + unfold set_yattr in E. apply Nat.eqb_neq in Hl. rewrite Hl in E. discriminate.
  - injection E as <-. split; [now apply decouple_sound|]. split; [reflexivity|exact (fun x => x)].
  - injection E as <-. now apply select_sound.
  - destruct (m_set_params m v) as [m1 [u|]] eqn:Ev; [|discriminate]. cbn in E. injection E as <-. destruct u. now apply (params_sound m v).
  - destruct A as (D & Hl & Hg). destruct Pr as [_ P2].
    destruct (train_ok pf tf m t m' (fun i phs ys ps H ph => P2 i phs ys ps ph H) S D Hl Hg E) as (_ & W & Hd & _).
    split; [now apply wf_sound|]. split; [trivial|]. intros _. exact (wf_ready pf m' W).
  - assert (Ht : touched m m').
    { destruct c as [x| |ts s]; cbn [reply1] in E.
      - destruct (m_diffeq pf m x) as [[m1 xd]|] eqn:Ed; [|discriminate]. cbn in E. injection E as <-. now apply diffeq_touch in Ed.
      - destruct (m_start pf m None) as [[[m1 x] xd]|] eqn:Ed; [|discriminate]. cbn in E. injection E as <-. now apply start_touch in Ed.
      - destruct (ana pf m ts s) as [r|]; [|discriminate]. cbn in E. injection E as <-. apply touched_refl. }
    destruct (touched_sound pf m m' S Ht) as (Q1 & Q2 & Q3 & _). spl.
Qed.
Lemma history_sound cs : forall m m', sound pf m -> allowed pf tf m cs -> apply_all pf tf m cs = Ok m' ->
  sound pf m' /\ m_dim m' = m_dim m /\ (ready m -> ready m').
Proof.
  induction cs as [|c cs IH]; intros m m' S A E; cbn [apply_all allowed] in *.
  - injection E as <-. spl.
  - destruct A as [A1 A2]. destruct (apply1 pf tf m c) as [m1|] eqn:E1; [|discriminate]. cbn [bind] in E.
    destruct (change_sound m c m1 S A1 E1) as (S1 & D1 & R1). destruct (IH m1 m' S1 A2 E) as (S2 & D2 & R2).
    split; [trivial|]. split; [congruence|]. auto.
Qed.
Lemma history_ready cs : forall m m', sound pf m -> allowed pf tf m cs -> apply_all pf tf m cs = Ok m' ->
  (exists t, In (XTrain t) cs) -> ready m'.
Proof.
  induction cs as [|c cs IH]; intros m m' S A E [t Hin]; cbn [apply_all allowed] in *; [contradiction|].
  destruct A as [A1 A2]. destruct (apply1 pf tf m c) as [m1|] eqn:E1; [|discriminate]. cbn [bind] in E.
  destruct (change_sound m c m1 S A1 E1) as (S1 & D1 & R1). destruct Hin as [->|Hin]; [|apply (IH m1 m'); eauto].
  destruct (history_sound cs m1 m' S1 A2 E) as (_ & _ & R2). apply R2.
  cbn [apply1 allowed1] in *. destruct A1 as (D & Hl & Hg). destruct Pr as [_ P2].
  destruct (train_ok pf tf m t m1 (fun i phs ys ps H ph => P2 i phs ys ps ph H) S D Hl Hg E1) as (_ & W & _).
  exact (wf_ready pf m1 W).
Qed.
(** rollouts are possible after every history *)
Lemma history_rollout cs m m' ts sup : sound pf m -> (ready m \/ exists t, In (XTrain t) cs) -> allowed pf tf m cs ->
  apply_all pf tf m cs = Ok m' -> ts <> [] ->
  m_dim m' = m_dim m /\ exists r, ana pf m' ts sup = Ok r /\ rollout_spec pf m' ts sup r.
Proof.
  intros S R A E Ht. destruct (history_sound cs m m' S A E) as (S' & D' & R'). split; [exact D'|].
  apply ana_total; [|exact Ht]. apply sound_wf; [exact S'|]. destruct R as [R|R]; [auto|]. now apply (history_ready cs m m').
Qed.
End S.
