(** Step-by-step optimization against the closed loop *)
From Coq Require Import String Ascii NArith.
From Verif Require Import Base BaseLemmas SessionModel SessionSpec SessionStrings SessionProofs SessionProofs2 SessionProofs3 SessionProofs4
  UpdatersModel LoopModel LoopSpec LoopProofs.
Open Scope string_scope.

Definition kk (nm : string) (i : nat) (l : idx) : key := get_base_name nm (IInt (Z.of_nat i)) l.
Definition lab (l : idx) : Prop := l = INone \/ (exists j, l = IInt (Z.of_nat j)) \/ l = IStr "eval".
Definition all_names : list string :=
  ["cost_vars"; "dmp"; "costs"; "distribution"; "samples"; "weights"; "distribution_new"].
Lemma kk_inj nm l i nm' l' i' : In nm all_names -> In nm' all_names -> lab l -> lab l' ->
  kk nm i l = kk nm' i' l' -> nm = nm' /\ i = i' /\ l = l'.
Proof.
  intros H H' L L' E. apply gbn_eq in E. destruct E as [-> E].
  assert (N : forall nm, In nm all_names -> exists c r, nm = String c r /\ is_digit c = false /\ c <> "e"%char).
  { clear. intros nm H. repeat (destruct H as [<-|H]; [eexists _, _; split; [reflexivity|split; [reflexivity|discriminate]]|]). destruct H. }
  assert (EV : forall nm nm', In nm all_names -> nm <> sample_name nm' (IStr "eval")).
  { intros a b Ha E'. destruct (N a Ha) as (c & r & -> & _ & Hc). cbn in E'. injection E' as -> _. now apply Hc. }
  assert (LI : forall nm nm' j, In nm all_names -> nm <> sample_name nm' (IInt (Z.of_nat j))).
  { intros a b j Ha E'. destruct (N a Ha) as (c & r & -> & Hc & _). apply String.eqb_eq in E'. rewrite literal_label in E' by exact Hc. discriminate. }
  destruct L as [->|[[j ->]| ->]], L' as [->|[[j' ->]| ->]].
  - cbn in E. auto.
  - exfalso. exact (LI _ _ _ H E).
  - exfalso. exact (EV _ _ H E).
  - exfalso. symmetry in E. exact (LI _ _ _ H' E).
  - apply String.eqb_eq in E. rewrite label_eqb in E. apply andb_prop in E. destruct E as [E1 E2].
    apply Nat.eqb_eq in E1. apply String.eqb_eq in E2. subst. auto.
  - exfalso. apply String.eqb_eq in E. change (sample_name nm' (IStr "eval")) with (String "e" ("val_" ++ nm')) in E.
    rewrite label_literal in E by reflexivity. discriminate.
  - exfalso. symmetry in E. exact (EV _ _ H' E).
  - exfalso. symmetry in E. apply String.eqb_eq in E. change (sample_name nm (IStr "eval")) with (String "e" ("val_" ++ nm)) in E.
    rewrite label_literal in E by reflexivity. discriminate.
  - cbn in E. injection E as ->. auto.
Qed.

Section P.
Variables CV P G : Type.
Notation oval := (oval CV P).
Variable category : oval -> ext.
Variable load : ext -> oval -> oval.
Variable gen : G -> dist -> Z -> G * res mat.
Variable evaluate : CV -> list R -> res cost.
Variable update : dist -> mat -> list cost -> res (dist * list R).
Variable dmp_get : P -> list R.
Variable dmp_set : P -> list R -> res P.
Variable execute : P -> res CV.
Notation orc := (dmp_oracles gen evaluate update dmp_set execute).
Notation S := (G * P)%type.
Notation st := (st CV P S).

Definition has (ws : world oval * sess) (k : key) (v : oval) : Prop :=
  exists a, cache_get (s_cache (snd ws)) k = Some a /\ nth_error (w_heap (fst ws)) a = Some v.

Lemma has_stored ws nm i is v : has ws (kk nm i is) v -> stored load ws nm i is v.
Proof.
  intros (a & H1 & H2). apply avail_returns. unfold avail. unfold kk in H1. rewrite H1. exact H2.
Qed.

(** what a part of the program may do to the session: change entries with keys in T *)
Definition ev (T : key -> Prop) (ws ws' : world oval * sess) : Prop :=
  s_root (snd ws') = s_root (snd ws) /\
  (forall d, In d (d_dirs (w_disk (fst ws))) -> In d (d_dirs (w_disk (fst ws')))) /\
  (forall k v, ~ T k -> has ws k v -> has ws' k v).
Lemma ev_refl T ws : ev T ws ws.
Proof. repeat split; auto. Qed.
Lemma ev_trans T1 T2 ws1 ws2 ws3 : ev T1 ws1 ws2 -> ev T2 ws2 ws3 -> ev (fun k => T1 k \/ T2 k) ws1 ws3.
Proof. intros (A1 & A2 & A3) (B1 & B2 & B3). split; [congruence|]. split; auto. intros k v Hk H. apply B3; [tauto|]. apply A3; [tauto|exact H]. Qed.
Lemma ev_weaken (T T' : key -> Prop) ws ws' : (forall k, T k -> T' k) -> ev T ws ws' -> ev T' ws ws'.
Proof. intros H (A1 & A2 & A3). split; [exact A1|]. split; [exact A2|]. intros k v Hk. apply A3. auto. Qed.
Lemma ev_has T ws ws' k v : ev T ws ws' -> ~ T k -> has ws k v -> has ws' k v.
Proof. intros (_ & _ & H). apply H. Qed.

Lemma tell_ev w s v nm i l :
  let ws' := tell category w s v nm (IInt (Z.of_nat i)) l in
  ev (eq (kk nm i l)) (w, s) ws' /\ has ws' (kk nm i l) v /\
  (s_root s = RDir -> In ("update" ++ fmt 5 (Z.of_nat i)) (d_dirs (w_disk (fst ws')))).
Proof.
  intros ws'. unfold ws', SessionModel.tell. cbn [fst snd]. split; [|split].
  - split; [reflexivity|]. split.
    + intros d Hd. cbn [fst w_disk]. destruct (not_none (s_root s)); [|exact Hd]. cbn [save d_dirs update_dir].
      destruct (str_mem _ _); [exact Hd|]. apply in_or_app. now left.
    + intros k x Hk (a & Ha & Hx). exists a. cbn [fst snd s_cache w_heap] in *. rewrite cache_get_set.
      rewrite key_eqb_neq; [|intros ->; apply Hk; reflexivity]. split; [exact Ha|].
      rewrite nth_error_snoc_lt; [exact Hx|]. eapply nth_error_lt; eauto.
  - exists (length (w_heap w)). cbn [fst snd s_cache w_heap]. rewrite cache_get_set. unfold kk. rewrite key_eqb_refl.
    split; [reflexivity|apply nth_error_snoc_eq].
  - intros Hr. cbn [fst w_disk]. rewrite Hr. cbn [not_none save d_dirs update_dir].
    destruct (str_mem _ _) eqn:E; [now apply str_mem_in|]. apply in_or_app. right. now left.
Qed.

Lemma m_tell_ev v nm i l o tr ws : exists ws',
  m_tell CV P S category v nm (IInt (Z.of_nat i)) l (St o tr ws) = (St o tr ws', Ok tt) /\
  ev (eq (kk nm i l)) ws ws' /\ has ws' (kk nm i l) v /\
  (s_root (snd ws) = RDir -> In ("update" ++ fmt 5 (Z.of_nat i)) (d_dirs (w_disk (fst ws')))).
Proof.
  destruct ws as [w s]. destruct (tell_ev w s v nm i l) as (H1 & H2 & H3).
  eexists. split; [reflexivity|]. cbn [st_db fst snd] in *. auto.
Qed.

Definition none (k : key) : Prop := False.
Lemma m_ask_any nm iu is (s s' : st) r : m_ask CV P S load nm iu is s = (s', r) ->
  ev none (st_db s) (st_db s') /\ st_out s' = st_out s /\ st_trace s' = st_trace s.
Proof.
  unfold m_ask, SessionModel.ask. destruct (st_db s) as [w se]. cbn [fst snd].
  destruct (cache_get (s_cache se) (get_base_name nm iu is)) as [a|] eqn:Ec.
  - destruct (nth_error (w_heap w) a) as [v|] eqn:Ev; intros H; injection H as <- <-; cbn [st_out st_db st_trace]; (split; [|auto]).
    + split; [reflexivity|]. split; [auto|]. intros k x _ (b & Hb & Hx). exists b. cbn [fst snd w_heap] in *.
      split; [exact Hb|]. rewrite nth_error_snoc_lt; [exact Hx|]. eapply nth_error_lt; eauto.
    + apply ev_refl.
  - destruct (negb (truthy (s_root se))).
    { intros H; injection H as <- <-; cbn; split; [apply ev_refl|auto]. }
    destruct (load_file load (w_disk w) _) as [v|e]; intros H; injection H as <- <-; cbn [st_out st_db st_trace]; (split; [|auto]); [|apply ev_refl].
    split; [reflexivity|]. split; [auto|]. intros k x _ (b & Hb & Hx). exists b. cbn [fst snd w_heap s_cache] in *.
    rewrite cache_get_set. rewrite key_eqb_neq; [|intros ->; congruence].
    split; [exact Hb|]. rewrite nth_error_snoc_lt; [exact Hx|]. eapply nth_error_lt; eauto.
Qed.
Lemma m_ask_has nm iu is v o tr ws : has ws (get_base_name nm iu is) v -> exists ws',
  m_ask CV P S load nm iu is (St o tr ws) = (St o tr ws', Ok v) /\ ev none ws ws'.
Proof.
  intros (a & H1 & H2). destruct (m_ask CV P S load nm iu is (St o tr ws)) as [s' r] eqn:E.
  pose proof (m_ask_any _ _ _ _ _ _ E) as (V & O & T). exists (st_db s'). split; [|exact V].
  destruct s' as [o' tr' ws']. cbn in O, T. subst. cbn [st_db]. f_equal.
  unfold m_ask, SessionModel.ask in E. cbn [st_db st_out st_trace] in E. rewrite H1, H2 in E.
  cbn [w_heap] in E. rewrite nth_error_snoc_eq in E. congruence.
Qed.

Lemma tell_task_ev v i l o tr ws :
  s_root (snd ws) = RDir -> In ("update" ++ fmt 5 (Z.of_nat i)) (d_dirs (w_disk (fst ws))) -> exists ws',
  tell_task CV P S category v "dmp" (IInt (Z.of_nat i)) l (St o tr ws) = (St o tr ws', Ok tt) /\
  ev (eq (kk "dmp" i l)) ws ws' /\ has ws' (kk "dmp" i l) v.
Proof.
  intros Hr Hd. destruct ws as [w se]. cbn [fst snd] in *. unfold tell_task. cbn [st_db].
  change (contains "dmp" "dmp") with true. rewrite Hr. cbn [not_none andb update_dir].
  assert (str_mem ("update" ++ fmt 5 (Z.of_nat i)) (d_dirs (w_disk w)) = true) as -> by now apply str_mem_in.
  eexists. split; [reflexivity|].
  match goal with |- ev _ _ (tell _ ?w1 _ _ _ _ _) /\ _ => destruct (tell_ev w1 se v "dmp" i l) as (H1 & H2 & _) end.
  split; [|exact H2]. destruct H1 as (A1 & A2 & A3). split; [exact A1|]. split; [exact A2|]. exact A3.
Qed.
Lemma tell_task_any v i l (s s' : st) r : tell_task CV P S category v "dmp" (IInt (Z.of_nat i)) l s = (s', r) ->
  ev (eq (kk "dmp" i l)) (st_db s) (st_db s').
Proof.
  unfold tell_task. destruct (st_db s) as [w se] eqn:Es. destruct (_ && _)%bool.
  - destruct (match update_dir _ with Some _ => _ | None => _ end).
    + intros H; injection H as <- <-. cbn [st_db].
      match goal with |- ev _ _ (tell _ ?w1 _ _ _ _ _) => destruct (tell_ev w1 se v "dmp" i l) as (H1 & _) end.
      destruct H1 as (A1 & A2 & A3). split; [exact A1|]. split; [exact A2|]. exact A3.
    + intros H; injection H as <- <-. rewrite Es. apply ev_refl.
  - intros H; injection H as <- <-. cbn [st_db]. apply tell_ev.
Qed.

(** ** one update *)
Variable p0 : P.
Definition like0 (p : P) : Prop := forall y, dmp_set p y = dmp_set p0 y.
Hypothesis set_get : forall p x p', dmp_set p x = Ok p' -> dmp_get p' = x.
Hypothesis set_set : forall p x p' y, dmp_set p x = Ok p' -> dmp_set p' y = dmp_set p y.

Lemma like0_set p x p' : like0 p -> dmp_set p x = Ok p' -> like0 p'.
Proof. intros H E y. rewrite (set_set p x p' y E). apply H. Qed.

Lemma bind_ok A B (m : M CV P S A) (k : A -> M CV P S B) s s1 a :
  m s = (s1, Ok a) -> bindM CV P S m k s = k a s1.
Proof. unfold bindM. intros ->. reflexivity. Qed.

Lemma lab_dec (l l' : idx) : {l = l'} + {l <> l'}.
Proof. decide equality; try apply Z.eq_dec; apply string_dec. Qed.

(** keys of update i with name nm and a label in ls *)
Definition at_ (nm : string) (i : nat) (ls : list idx) (k : key) : Prop := exists l, In l ls /\ k = kk nm i l.

Section Update.
Variable i : nat.
(** the data of an update, by label *)
Variables (xl : idx -> list R) (pl : idx -> P) (vl : idx -> CV) (cl : idx -> cost) (c0 : idx -> R).

Ltac nokey := let E := fresh in intros E; first [destruct E as [E|E]; revert E; nokey |
   (try destruct E as (? & ? & E)); apply kk_inj in E; try (cbn; tauto); auto; destruct E as (? & ? & ?); try discriminate].

Lemma execute_dmps_ok ls : Forall lab ls ->
  (forall l, In l ls -> execute (pl l) = Ok (vl l)) ->
  forall o tr ws, (forall l, In l ls -> has ws (kk "dmp" i l) (ODmp (pl l))) ->
  exists ws', execute_dmps CV P S category load execute (Z.of_nat i) ls (St o tr ws) = (St o tr ws', Ok tt) /\
    ev (at_ "cost_vars" i ls) ws ws' /\ forall l, In l ls -> has ws' (kk "cost_vars" i l) (OVars (vl l)).
Proof.
  intros HL Hx. induction ls as [|l ls IH]; intros o tr ws Hd; cbn [execute_dmps].
  - exists ws. split; [reflexivity|]. split; [apply ev_refl|]. intros l [].
  - inversion HL as [|? ? L HL']; subst. pose proof HL' as HL2. rewrite Forall_forall in HL2.
    destruct (m_ask_has "dmp" (IInt (Z.of_nat i)) l _ o tr ws (Hd l (or_introl eq_refl))) as (ws1 & E1 & V1).
    rewrite (bind_ok _ _ _ _ _ _ _ E1). unfold bindM at 1, lift. rewrite (Hx l (or_introl eq_refl)).
    destruct (m_tell_ev (OVars (vl l)) "cost_vars" i l o tr ws1) as (ws2 & E2 & V2 & H2 & _).
    rewrite (bind_ok _ _ _ _ _ _ _ E2).
    destruct (IH HL' (fun l' Hl' => Hx l' (or_intror Hl')) o tr ws2) as (ws3 & E3 & V3 & H3).
    { intros l' Hl'. eapply ev_has; [exact V2|nokey|]. eapply ev_has; [exact V1|intros []|]. apply Hd; now right. }
    exists ws3. split; [exact E3|]. split.
    + eapply ev_weaken; [|eapply ev_trans; [exact V1|eapply ev_trans; [exact V2|exact V3]]].
      intros k [[]|[<-|(l' & Hl' & ->)]]; [exists l|exists l']; cbn; auto.
    + intros l' [<-|Hl']; [|auto]. destruct (in_dec lab_dec l ls) as [Hin|Hn]; [auto|].
      eapply ev_has; [exact V3| |exact H2]. intros (l' & Hl' & E). apply kk_inj in E; try (cbn; tauto); auto.
      destruct E as (_ & _ & ->). contradiction.
Qed.

Lemma eval_labels_ok ls : Forall lab ls ->
  (forall l, In l ls -> evaluate (vl l) (xl l) = Ok (cl l)) ->
  (forall l, In l ls -> dmp_get (pl l) = xl l) ->
  (forall l, In l ls -> cost0 (cl l) = Ok (c0 l)) ->
  forall o tr ws, (forall l, In l ls -> has ws (kk "dmp" i l) (ODmp (pl l))) ->
  (forall l, In l ls -> has ws (kk "cost_vars" i l) (OVars (vl l))) ->
  exists tr' ws', eval_labels CV P S category load orc dmp_get (Z.of_nat i) ls (St o tr ws) =
      (St o tr' ws', Ok (flat_map (fun l => match l with IStr _ => [] | _ => [c0 l] end) ls)) /\
    ev (at_ "costs" i ls) ws ws' .
Proof.
  intros HL He Hg H0. induction ls as [|l ls IH]; intros o tr ws Hd Hv; cbn [eval_labels].
  - exists tr, ws. split; [reflexivity|]. apply ev_refl.
  - inversion HL as [|? ? L HL']; subst. pose proof HL' as HL2. rewrite Forall_forall in HL2.
    destruct (m_ask_has "cost_vars" (IInt (Z.of_nat i)) l _ o tr ws (Hv l (or_introl eq_refl))) as (ws1 & E1 & V1).
    rewrite (bind_ok _ _ _ _ _ _ _ E1).
    destruct (m_ask_has "dmp" (IInt (Z.of_nat i)) l (ODmp (pl l)) o tr ws1) as (ws2 & E2 & V2).
    { eapply ev_has; [exact V1|intros []|]. apply Hd. now left. }
    rewrite (bind_ok _ _ _ _ _ _ _ E2).
    assert (E3 : m_evalr CV P S orc (vl l) (dmp_get (pl l)) (St o tr ws2) =
      (St o (tr ++ [EEvalR (vl l) (xl l) (cl l)])%list ws2, Ok (cl l))).
    { unfold m_evalr, call_out. cbn [dmp_oracles o_evalr st_out st_trace st_db]. rewrite (Hg l), (He l) by now left. reflexivity. }
    rewrite (bind_ok _ _ _ _ _ _ _ E3).
    destruct (m_tell_ev (OCost (cl l)) "costs" i l o (tr ++ [EEvalR (vl l) (xl l) (cl l)])%list ws2) as (ws3 & E4 & V3 & H3 & _).
    rewrite (bind_ok _ _ _ _ _ _ _ E4).
    destruct (IH HL' (fun l' Hl' => He l' (or_intror Hl')) (fun l' Hl' => Hg l' (or_intror Hl')) (fun l' Hl' => H0 l' (or_intror Hl'))
       o (tr ++ [EEvalR (vl l) (xl l) (cl l)])%list ws3) as (tr4 & ws4 & E5 & V4).
    { intros l' Hl'. eapply ev_has; [exact V3|nokey|]. eapply ev_has; [exact V2|intros []|]. eapply ev_has; [exact V1|intros []|]. apply Hd; now right. }
    { intros l' Hl'. eapply ev_has; [exact V3|nokey|]. eapply ev_has; [exact V2|intros []|]. eapply ev_has; [exact V1|intros []|]. apply Hv; now right. }
    exists tr4, ws4. split.
    + cbn [flat_map]. destruct l; [| | |exact E5];
      unfold bindM at 1, lift; rewrite H0 by (now left); rewrite (bind_ok _ _ _ _ _ _ _ E5); reflexivity.
    + eapply ev_weaken; [|eapply ev_trans; [exact V1|eapply ev_trans; [exact V2|eapply ev_trans; [exact V3|exact V4]]]].
      intros k [[]|[[]|[<-|(l' & Hl' & ->)]]]; [exists l|exists l']; cbn; auto.
Qed.

(** ** generating the next samples *)
Lemma tell_dmps_ok ls m mean : Forall lab ls ->
  (forall l, In l ls -> match l with IInt j => nth_res (mrows m) (Z.to_nat j) = Ok (xl l) | _ => mean = xl l end) ->
  (forall l, In l ls -> dmp_set p0 (xl l) = Ok (pl l)) ->
  forall p o tr ws, like0 p -> s_root (snd ws) = RDir -> In ("update" ++ fmt 5 (Z.of_nat i)) (d_dirs (w_disk (fst ws))) ->
  exists ws', tell_dmps CV P S category dmp_set (Z.of_nat i) m mean p ls (St o tr ws) = (St o tr ws', Ok tt) /\
    ev (at_ "dmp" i ls) ws ws' /\ forall l, In l ls -> has ws' (kk "dmp" i l) (ODmp (pl l)).
Proof.
  intros HL Hx Hs. induction ls as [|l ls IH]; intros p o tr ws Hp Hr Hd; cbn [tell_dmps].
  - exists ws. split; [reflexivity|]. split; [apply ev_refl|]. intros l [].
  - inversion HL as [|? ? L HL']; subst. pose proof HL' as HL2. rewrite Forall_forall in HL2.
    assert (E1 : (match l with IInt j => lift CV P S (nth_res (mrows m) (Z.to_nat j)) | _ => ret CV P S mean end) (St o tr ws) = (St o tr ws, Ok (xl l))).
    { specialize (Hx l (or_introl eq_refl)). destruct l; unfold lift, ret; rewrite ?Hx; reflexivity. }
    rewrite (bind_ok _ _ _ _ _ _ _ E1). unfold bindM at 1, lift. rewrite Hp, (Hs l (or_introl eq_refl)).
    destruct (tell_task_ev (ODmp (pl l)) i l o tr ws Hr Hd) as (ws2 & E2 & V2 & H2).
    rewrite (bind_ok _ _ _ _ _ _ _ E2).
    destruct (IH HL' (fun l' Hl' => Hx l' (or_intror Hl')) (fun l' Hl' => Hs l' (or_intror Hl')) (pl l) o tr ws2) as (ws3 & E3 & V3 & H3).
    { apply (like0_set p (xl l)); [exact Hp|]. rewrite Hp. apply Hs. now left. }
    { destruct V2 as (A & _). congruence. } { apply V2. exact Hd. }
    exists ws3. split; [exact E3|]. split.
    + eapply ev_weaken; [|eapply ev_trans; [exact V2|exact V3]].
      intros k [<-|(l' & Hl' & ->)]; [exists l|exists l']; cbn; auto.
    + intros l' [<-|Hl']; [|auto]. destruct (in_dec lab_dec l ls) as [Hin|Hn]; [auto|].
      eapply ev_has; [exact V3| |exact H2]. intros (l' & Hl' & E). apply kk_inj in E; try (cbn; tauto); auto.
      destruct E as (_ & _ & ->). contradiction.
Qed.
Lemma tell_dmps_any ls m mean : forall p (s s' : st) r,
  tell_dmps CV P S category dmp_set (Z.of_nat i) m mean p ls s = (s', r) -> ev (at_ "dmp" i ls) (st_db s) (st_db s').
Proof.
  induction ls as [|l ls IH]; intros p s s' r H; cbn [tell_dmps] in H.
  - injection H as <- _. apply ev_refl.
  - apply bind_inv in H. destruct H as (s1 & r1 & E1 & H).
    assert (s1 = s) as -> by (destruct l; unfold lift, ret in E1; congruence).
    destruct r1 as [x|e]; [|destruct H as [-> _]; apply ev_refl].
    apply bind_inv in H. destruct H as (s2 & r2 & E2 & H). unfold lift in E2. injection E2 as <- <-.
    destruct (dmp_set p x) as [p'|e]; [|destruct H as [-> _]; apply ev_refl].
    apply bind_inv in H. destruct H as (s3 & r3 & E3 & H). apply tell_task_any in E3.
    destruct r3 as [u|e].
    + apply IH in H. eapply ev_weaken; [|eapply ev_trans; [exact E3|exact H]].
      intros k [<-|(l' & Hl' & ->)]; [exists l|exists l']; cbn; auto.
    + destruct H as [-> _]. eapply ev_weaken; [|exact E3]. intros k <-. exists l. cbn. auto.
Qed.

Definition gen_keys (n : Z) (k : key) : Prop :=
  k = kk "distribution" i INone \/ k = kk "samples" i INone \/ at_ "dmp" i (labels n) k.

Lemma labels_lab n : Forall lab (labels n).
Proof.
  apply Forall_app. split; [|constructor; [right; now right|constructor]].
  apply Forall_forall. intros l Hl. apply in_map_iff in Hl. destruct Hl as (j & <- & _). right; left. eauto.
Qed.

Lemma generate_ok d n m g g' q tr ws : s_root (snd ws) = RDir ->
  has ws (KStr "dmp_initial") (ODmp p0) ->
  gen g d n = (g', Ok m) ->
  (forall l, In l (labels n) -> match l with IInt j => nth_res (mrows m) (Z.to_nat j) = Ok (xl l) | _ => d_mean d = xl l end) ->
  (forall l, In l (labels n) -> dmp_set p0 (xl l) = Ok (pl l)) ->
  exists tr' ws', generate_and_tell CV P S category load orc dmp_set d n (Z.of_nat i) (St (g, q) tr ws) = (St (g', q) tr' ws', Ok tt) /\
    ev (gen_keys n) ws ws' /\ has ws' (kk "distribution" i INone) (ODist d) /\ has ws' (kk "samples" i INone) (OMat m) /\
    forall l, In l (labels n) -> has ws' (kk "dmp" i l) (ODmp (pl l)).
Proof.
  intros Hr Hi Hg Hx Hs. unfold generate_and_tell.
  assert (E1 : m_gen CV P S orc d n (St (g, q) tr ws) = (St (g', q) (tr ++ [EGen d n m])%list ws, Ok m)).
  { unfold m_gen, call_out. cbn [dmp_oracles o_gen st_out st_trace st_db fst snd]. rewrite Hg. reflexivity. }
  rewrite (bind_ok _ _ _ _ _ _ _ E1). set (tr1 := (tr ++ [EGen d n m])%list).
  destruct (m_tell_ev (ODist d) "distribution" i INone (g', q) tr1 ws) as (ws2 & E2 & V2 & H2 & D2).
  rewrite (bind_ok _ _ _ _ _ _ _ E2).
  destruct (m_tell_ev (OMat m) "samples" i INone (g', q) tr1 ws2) as (ws3 & E3 & V3 & H3 & _).
  rewrite (bind_ok _ _ _ _ _ _ _ E3).
  destruct (m_ask_has "dmp_initial" INone INone (ODmp p0) (g', q) tr1 ws3) as (ws4 & E4 & V4).
  { eapply ev_has; [exact V3|discriminate|]. eapply ev_has; [exact V2|discriminate|]. exact Hi. }
  rewrite (bind_ok _ _ _ _ _ _ _ E4).
  assert (R4 : s_root (snd ws4) = RDir).
  { destruct V2 as (A & _), V3 as (B & _), V4 as (C & _). congruence. }
  destruct (tell_dmps_ok (labels n) m (d_mean d) (labels_lab n) Hx Hs p0 (g', q) tr1 ws4) as (ws5 & E5 & V5 & H5); auto.
  { intros y. reflexivity. } { apply V4, V3, D2, Hr. }
  rewrite (bind_ok _ _ _ _ _ _ _ E5). exists tr1, ws5. split; [|split; [|split; [|split]]].
  - cbn [st_db]. destruct V5 as (A & _). rewrite A, R4. reflexivity.
  - eapply ev_weaken; [|eapply ev_trans; [exact V2|eapply ev_trans; [exact V3|eapply ev_trans; [exact V4|exact V5]]]].
    unfold gen_keys. intros k [<-|[<-|[[]|H]]]; auto.
  - pose proof (labels_lab n) as HL. rewrite Forall_forall in HL.
    eapply ev_has; [exact V5| |]. { intros (l & Hl & E). apply kk_inj in E; try (cbn; tauto); auto; [|now left]. destruct E; discriminate. }
    eapply ev_has; [exact V4|intros []|]. eapply ev_has; [exact V3| |exact H2].
    intros E. apply kk_inj in E; try (cbn; tauto); try (now left). destruct E; discriminate.
  - pose proof (labels_lab n) as HL. rewrite Forall_forall in HL.
    eapply ev_has; [exact V5| |]. { intros (l & Hl & E). apply kk_inj in E; try (cbn; tauto); auto; [|now left]. destruct E; discriminate. }
    eapply ev_has; [exact V4|intros []|]. exact H3.
  - exact H5.
Qed.

Lemma generate_any d n (s s' : st) r :
  generate_and_tell CV P S category load orc dmp_set d n (Z.of_nat i) s = (s', r) -> ev (gen_keys n) (st_db s) (st_db s').
Proof.
  unfold generate_and_tell. intros H.
  apply bind_inv in H. destruct H as (s1 & r1 & E1 & H). unfold m_gen in E1. apply call_out_inv in E1. destruct E1 as (D1 & _ & _).
  destruct r1 as [m|e]; [|destruct H as [-> _]; rewrite D1; apply ev_refl].
  rewrite <- D1. clear D1. destruct s1 as [o1 tr1 ws1]. cbn [st_db].
  destruct (m_tell_ev (ODist d) "distribution" i INone o1 tr1 ws1) as (ws2 & E2 & V2 & _).
  rewrite (bind_ok _ _ _ _ _ _ _ E2) in H.
  destruct (m_tell_ev (OMat m) "samples" i INone o1 tr1 ws2) as (ws3 & E3 & V3 & _).
  rewrite (bind_ok _ _ _ _ _ _ _ E3) in H.
  apply bind_inv in H. destruct H as (s4 & r4 & E4 & H). apply m_ask_any in E4. destruct E4 as (V4 & _ & _). cbn [st_db] in V4.
  assert (B : ev (gen_keys n) ws1 (st_db s4)).
  { eapply ev_weaken; [|eapply ev_trans; [exact V2|eapply ev_trans; [exact V3|exact V4]]].
    unfold gen_keys. intros k [<-|[<-|[]]]; auto. }
  destruct r4 as [v|e]; [|destruct H as [-> _]; exact B].
  destruct v; try (unfold lift in H; injection H as <- _; exact B).
  apply bind_inv in H. destruct H as (s5 & r5 & E5 & H). apply tell_dmps_any in E5.
  assert (B5 : ev (gen_keys n) ws1 (st_db s5)).
  { eapply ev_weaken; [|eapply ev_trans; [exact B|exact E5]]. intros k [Hk|Hk]; [exact Hk|]. right; right; exact Hk. }
  destruct r5; [injection H as <- _; exact B5|destruct H as [-> _]; exact B5].
Qed.
End Update.

(** ** the closed loop *)
Hypothesis update_total : forall d m cs xs, Forall2 (fun c x => cost0 c = Ok x) cs xs ->
  update d m (map CScalar xs) = update d m cs.
Hypothesis has_total : forall v x c, evaluate v x = Ok c -> exists r, cost0 c = Ok r.
Variable n : Z.
Hypothesis gen_rows : forall g d g' m, gen g d n = (g', Ok m) -> length (mrows m) = Z.to_nat n.

Definition rolled (x : list R) (vc : CV * cost) : Prop :=
  exists p, dmp_set p0 x = Ok p /\ execute p = Ok (fst vc) /\ evaluate (fst vc) x = Ok (snd vc).

Lemma roll_inv g q x o1 o2 v c : like0 q -> o_roll CV S orc (g, q) x = (o1, Ok v) -> o_evalr CV S orc o1 v x = (o2, Ok c) ->
  rolled x (v, c) /\ exists q', o2 = (g, q') /\ like0 q'.
Proof.
  intros Hq E1 E2. cbn [dmp_oracles o_roll o_evalr fst snd] in E1, E2. rewrite Hq in E1.
  destruct (dmp_set p0 x) as [p|] eqn:Es; [|discriminate]. injection E1 as <- E1. injection E2 as <- E2.
  split; [exists p; auto|]. exists p. split; [reflexivity|]. apply (like0_set q x); [exact Hq|]. rewrite Hq. exact Es.
Qed.
Lemma rolls_inv xs : forall g q vcs o', like0 q -> roll_outs CV S orc (g, q) xs vcs o' ->
  Forall2 rolled xs vcs /\ exists q', o' = (g, q') /\ like0 q'.
Proof.
  induction xs as [|x xs IH]; intros g q vcs o' Hq H; destruct vcs as [|[v c] vcs]; try contradiction; cbn [roll_outs] in H.
  - subst o'. split; [constructor|]. eauto.
  - destruct H as (o1 & o2 & E1 & E2 & H). destruct (roll_inv _ _ _ _ _ _ _ Hq E1 E2) as (R & q2 & -> & Hq2).
    destruct (IH _ _ _ _ Hq2 H) as (F & H'). split; [constructor; auto|exact H'].
Qed.
Lemma task_inv g q t o' : like0 q -> task_outs CV S orc n (g, q) t o' ->
  let u := t_upd t in
  rolled (d_mean (u_dist u)) (t_mean_vars t, u_mean_cost u) /\
  Forall2 rolled (mrows (u_samples u)) (combine (t_vars t) (u_costs u)) /\
  update (u_dist u) (u_samples u) (u_costs u) = Ok (u_new u, u_weights u) /\
  exists g' q', gen g (u_dist u) n = (g', Ok (u_samples u)) /\ o' = (g', q') /\ like0 q'.
Proof.
  intros Hq (o1 & o2 & o3 & o4 & E1 & E2 & E3 & E4 & E5) u. fold u in E1, E2, E3, E4, E5.
  destruct (roll_inv _ _ _ _ _ _ _ Hq E1 E2) as (R & q2 & -> & Hq2).
  cbn [dmp_oracles o_gen fst snd] in E3. destruct (gen g (u_dist u) n) as [g' r] eqn:Eg. injection E3 as <- ->.
  destruct (rolls_inv _ _ _ _ _ Hq2 E4) as (F & q4 & -> & Hq4).
  cbn [dmp_oracles o_upd] in E5. injection E5 as <- E5.
  split; [exact R|]. split; [exact F|]. split; [exact E5|]. exists g', q4. auto.
Qed.

(** the data of an update by label *)
Section Labels.
Variable t : task_rec CV.
Let u := t_upd t.
Definition xl (l : idx) : list R :=
  match l with IInt z => nth (Z.to_nat z) (mrows (u_samples u)) [] | _ => d_mean (u_dist u) end.
Definition pl (l : idx) : P := match dmp_set p0 (xl l) with Ok p => p | Err _ => p0 end.
Definition vl (l : idx) : CV := match execute (pl l) with Ok v => v | Err _ => t_mean_vars t end.
Definition cl (l : idx) : cost := match evaluate (vl l) (xl l) with Ok c => c | Err _ => u_mean_cost u end.
Definition c0 (l : idx) : R := match cost0 (cl l) with Ok r => r | Err _ => 0%R end.

Lemma rolled_label l v c : rolled (xl l) (v, c) ->
  dmp_set p0 (xl l) = Ok (pl l) /\ execute (pl l) = Ok (vl l) /\ evaluate (vl l) (xl l) = Ok (cl l) /\
  dmp_get (pl l) = xl l /\ cost0 (cl l) = Ok (c0 l) /\ vl l = v /\ cl l = c.
Proof.
  intros (p & E1 & E2 & E3). cbn [fst snd] in *.
  assert (Ep : pl l = p) by (unfold pl; now rewrite E1).
  assert (Ev : vl l = v) by (unfold vl; now rewrite Ep, E2).
  assert (Ec : cl l = c) by (unfold cl; now rewrite Ev, E3).
  rewrite Ep, Ev, Ec. repeat split; auto.
  - eapply set_get; eauto.
  - destruct (has_total _ _ _ E3) as (r & Hr). unfold c0. now rewrite Ec, Hr.
Qed.

Hypothesis R : rolled (d_mean (u_dist u)) (t_mean_vars t, u_mean_cost u).
Hypothesis F : Forall2 rolled (mrows (u_samples u)) (combine (t_vars t) (u_costs u)).
Hypothesis Hn : length (mrows (u_samples u)) = Z.to_nat n.
Hypothesis C : t_complete t.

Lemma label_rolled l : In l (labels n) -> exists v c, rolled (xl l) (v, c).
Proof.
  intros H. apply in_app_or in H. destruct H as [H|[<-|[]]].
  - apply in_map_iff in H. destruct H as (j & <- & Hj). apply in_seq in Hj. cbn [xl]. rewrite Nat2Z.id.
    assert (Hj' : (j < length (mrows (u_samples u)))%nat) by lia.
    clear - F Hj'. revert j Hj'. revert F. generalize (mrows (u_samples u)) as xs, (combine (t_vars t) (u_costs u)) as vcs.
    induction 1 as [|x [v c] xs vcs H HF IH]; intros j Hj; [cbn in Hj; lia|].
    destruct j as [|j]; cbn [nth]; [eauto|]. apply IH; [exact HF|]. cbn in Hj. lia.
  - cbn [xl]. eauto.
Qed.
Lemma label_facts l : In l (labels n) ->
  dmp_set p0 (xl l) = Ok (pl l) /\ execute (pl l) = Ok (vl l) /\ evaluate (vl l) (xl l) = Ok (cl l) /\
  dmp_get (pl l) = xl l /\ cost0 (cl l) = Ok (c0 l).
Proof. intros H. destruct (label_rolled l H) as (v & c & Hr). apply rolled_label in Hr. tauto. Qed.
Lemma label_sample l : In l (labels n) ->
  match l with IInt j => nth_res (mrows (u_samples u)) (Z.to_nat j) = Ok (xl l) | _ => d_mean (u_dist u) = xl l end.
Proof.
  intros H. apply in_app_or in H. destruct H as [H|[<-|[]]]; [|reflexivity].
  apply in_map_iff in H. destruct H as (j & <- & Hj). apply in_seq in Hj. cbn [xl]. rewrite Nat2Z.id.
  unfold nth_res. rewrite (nth_error_nth' _ []) by lia. reflexivity.
Qed.
Lemma label_costs : update (u_dist u) (u_samples u)
    (map CScalar (flat_map (fun l => match l with IStr _ => [] | _ => [c0 l] end) (labels n))) =
  update (u_dist u) (u_samples u) (u_costs u).
Proof.
  apply update_total.
  assert (E : flat_map (fun l => match l with IStr _ => [] | _ => [c0 l] end) (labels n) =
              map (fun j => c0 (IInt (Z.of_nat j))) (seq 0 (Z.to_nat n))).
  { unfold labels. rewrite flat_map_app. cbn [flat_map]. rewrite !app_nil_r. generalize (seq 0 (Z.to_nat n)) as js.
    induction js as [|j js IH]; [reflexivity|]. cbn. now rewrite IH. }
  rewrite E. destruct C as [C1 C2]. unfold complete in C1. fold u in C1, C2. rewrite <- Hn, <- C1.
  assert (GC : forall j c, nth_error (u_costs u) j = Some c -> cost0 c = Ok (c0 (IInt (Z.of_nat j)))).
  { intros j c Hj. assert (Hlt : (j < length (u_costs u))%nat) by (apply nth_error_Some; congruence).
    destruct (nth_error (t_vars t) j) as [v|] eqn:Hv; [|apply nth_error_None in Hv; lia].
    destruct (nth_error (mrows (u_samples u)) j) as [x|] eqn:Hx; [|apply nth_error_None in Hx; lia].
    assert (Hr : rolled x (v, c)).
    { assert (Hvc : nth_error (combine (t_vars t) (u_costs u)) j = Some (v, c)).
      { clear - Hv Hj. revert Hj Hv. generalize (u_costs u) as l2. generalize (t_vars t) as l1. induction j as [|j IH]; intros [|a l1] [|b l2] Hc Hv; try discriminate; cbn in *; [congruence|]. now apply IH. }
      clear - F Hx Hvc. revert j Hx Hvc. revert F. generalize (mrows (u_samples u)) as xs, (combine (t_vars t) (u_costs u)) as vcs.
      induction 1 as [|x0 vc0 xs vcs H HF IH]; intros j Hx Hvc; [destruct j; discriminate|].
      destruct j; cbn in *; [congruence|]. eapply IH; eauto. }
    assert (Ex : x = xl (IInt (Z.of_nat j))).
    { cbn [xl]. rewrite Nat2Z.id. symmetry. apply nth_error_nth. exact Hx. }
    rewrite Ex in Hr. apply rolled_label in Hr. destruct Hr as (_ & _ & _ & _ & H5 & _ & H7). now rewrite <- H7. }
  clear - GC. revert GC. generalize (u_costs u) as cs. intros cs.
  assert (Gen : forall b f, (forall j c, nth_error cs j = Some c -> cost0 c = Ok (f (b + j)%nat)) ->
     Forall2 (fun c x => cost0 c = Ok x) cs (map f (seq b (length cs)))).
  { induction cs as [|c cs IH]; intros b f GC; [constructor|]. cbn. constructor.
    - specialize (GC 0%nat c eq_refl). now rewrite Nat.add_0_r in GC.
    - apply IH. intros j c' Hj. specialize (GC (Datatypes.S j) c' Hj). now rewrite Nat.add_succ_r in GC. }
  intros GC. apply (Gen 0%nat (fun j => c0 (IInt (Z.of_nat j)))). exact GC.
Qed.
End Labels.

(** ** the step-by-step program *)
Variables task updater : oval.
Definition static (ws : world oval * sess) : Prop :=
  s_root (snd ws) = RDir /\ has ws (KStr "n_samples_per_update") (OInt n) /\ has ws (KStr "task") task /\
  has ws (KStr "updater") updater /\ has ws (KStr "dmp_initial") (ODmp p0).
Definition high (i : nat) (k : key) : Prop :=
  exists nm j l, (i <= j)%nat /\ In nm all_names /\ lab l /\ k = kk nm j l.
Lemma static_ev i ws ws' : ev (high i) ws ws' -> static ws -> static ws'.
Proof.
  intros V (A1 & A2 & A3 & A4 & A5). split; [destruct V; congruence|].
  repeat split; (eapply ev_has; [exact V| |eassumption]); intros (? & ? & ? & _ & _ & _ & E); discriminate.
Qed.
Definition ready (i : nat) (t : task_rec CV) (ws : world oval * sess) : Prop :=
  static ws /\ has ws (kk "distribution" i INone) (ODist (u_dist (t_upd t))) /\
  has ws (kk "samples" i INone) (OMat (u_samples (t_upd t))) /\
  forall l, In l (labels n) -> has ws (kk "dmp" i l) (ODmp (pl t l)).

Definition done (i : nat) (t : task_rec CV) (ws : world oval * sess) : Prop :=
  has ws (kk "distribution" i INone) (ODist (u_dist (t_upd t))) /\
  has ws (kk "samples" i INone) (OMat (u_samples (t_upd t))) /\
  has ws (kk "weights" i INone) (OVec (u_weights (t_upd t))) /\
  has ws (kk "distribution_new" i INone) (ODist (u_new (t_upd t))).

Ltac hi := repeat match goal with
  | |- _ -> _ => intro
  end; eexists _, _, _; split; [|split; [|split; [|eassumption || reflexivity]]]; try lia; try (cbn; tauto); try (now left); auto.

Lemma at_high nm i ls k : In nm all_names -> Forall lab ls -> at_ nm i ls k -> high i k.
Proof. intros Hn HL (l & Hl & ->). rewrite Forall_forall in HL. exists nm, i, l. auto. Qed.
Lemma gen_high i k : gen_keys i n k -> high i k.
Proof.
  intros [->|[->|H]].
  - exists "distribution", i, INone. cbn. repeat split; try tauto; try lia. now left.
  - exists "samples", i, INone. cbn. repeat split; try tauto; try lia. now left.
  - eapply at_high; [|apply labels_lab|exact H]. cbn; tauto.
Qed.
Lemma high_le i j k : (i <= j)%nat -> high j k -> high i k.
Proof. intros H (nm & j' & l & Hj & R). exists nm, j', l. split; [lia|exact R]. Qed.
Lemma not_high i nm l : In nm all_names -> lab l -> ~ high (Datatypes.S i) (kk nm i l).
Proof. intros Hn Hl (nm' & j & l' & Hj & Hn' & Hl' & E). apply kk_inj in E; auto. destruct E as (_ & E & _). lia. Qed.

Lemma one_step i t o tr ws :
  rolled (d_mean (u_dist (t_upd t))) (t_mean_vars t, u_mean_cost (t_upd t)) ->
  Forall2 rolled (mrows (u_samples (t_upd t))) (combine (t_vars t) (u_costs (t_upd t))) ->
  length (mrows (u_samples (t_upd t))) = Z.to_nat n -> t_complete t ->
  update (u_dist (t_upd t)) (u_samples (t_upd t)) (u_costs (t_upd t)) = Ok (u_new (t_upd t), u_weights (t_upd t)) ->
  ready i t ws ->
  exists tr' ws',
    bindM CV P S (execute_dmps CV P S category load execute (Z.of_nat i) (labels n))
      (fun _ => update_step CV P S category load orc dmp_get dmp_set i) (St o tr ws) =
    generate_and_tell CV P S category load orc dmp_set (u_new (t_upd t)) n (Z.of_nat i + 1) (St o tr' ws') /\
    ev (high i) ws ws' /\ static ws' /\ done i t ws'.
Proof.
  intros R F Hn C U (Hs & Hd & Hsm & Hp). pose proof (labels_lab n) as HL. pose proof HL as HL2. rewrite Forall_forall in HL2.
  pose proof (label_facts t R F Hn) as LF.
  destruct (execute_dmps_ok i (xl t) (pl t) (vl t) (cl t) (c0 t) (labels n) HL (fun l H => proj1 (proj2 (LF l H))) o tr ws Hp) as (ws1 & E1 & V1 & H1).
  rewrite (bind_ok _ _ _ _ _ _ _ E1). unfold update_step.
  assert (S1 : static ws1) by (eapply static_ev; [eapply ev_weaken; [|exact V1]; intros k; apply at_high; [cbn; tauto|exact HL]|exact Hs]).
  destruct S1 as (B1 & B2 & B3 & B4 & B5).
  destruct (m_ask_has "n_samples_per_update" INone INone (OInt n) o tr ws1 B2) as (ws2 & E2 & V2).
  rewrite (bind_ok _ _ _ _ _ _ _ E2).
  assert (H2 : forall k v, has ws1 k v -> has ws2 k v) by (intros k v; eapply ev_has; [exact V2|intros []]).
  destruct (m_ask_has "task" INone INone task o tr ws2 (H2 _ _ B3)) as (ws3 & E3 & V3).
  rewrite (bind_ok _ _ _ _ _ _ _ E3).
  assert (H3 : forall k v, has ws1 k v -> has ws3 k v) by (intros k v Hk; eapply ev_has; [exact V3|intros []|now apply H2]).
  destruct (eval_labels_ok i (xl t) (pl t) (vl t) (cl t) (c0 t) (labels n) HL) with (o := o) (tr := tr) (ws := ws3) as (tr4 & ws4 & E4 & V4).
  { intros l H. apply LF. exact H. } { intros l H. apply LF. exact H. } { intros l H. apply LF. exact H. }
  { intros l H. apply H3. eapply ev_has; [exact V1| |now apply Hp]. intros (l' & Hl' & E). apply kk_inj in E; try (cbn; tauto); auto. destruct E; discriminate. }
  { intros l H. apply H3. now apply H1. }
  rewrite (bind_ok _ _ _ _ _ _ _ E4).
  assert (K1 : forall nm v, In nm all_names -> nm <> "cost_vars" -> nm <> "costs" -> has ws (kk nm i INone) v -> has ws4 (kk nm i INone) v).
  { intros nm v Hin N1 N2 H. eapply ev_has; [exact V4| |apply H3; eapply ev_has; [exact V1| |exact H]];
    intros (l' & Hl' & E); apply kk_inj in E; try (cbn; tauto); auto; try (now left); destruct E; congruence. }
  assert (Kd : has ws4 (kk "distribution" i INone) (ODist (u_dist (t_upd t)))) by (apply K1; auto; try discriminate; cbn; tauto).
  assert (Ks : has ws4 (kk "samples" i INone) (OMat (u_samples (t_upd t)))) by (apply K1; auto; try discriminate; cbn; tauto).
  destruct (m_ask_has "distribution" (IInt (Z.of_nat i)) INone _ o tr4 ws4 Kd) as (ws5 & E5 & V5).
  rewrite (bind_ok _ _ _ _ _ _ _ E5).
  assert (H5 : forall k v, has ws4 k v -> has ws5 k v) by (intros k v; eapply ev_has; [exact V5|intros []]).
  destruct (m_ask_has "samples" (IInt (Z.of_nat i)) INone _ o tr4 ws5 (H5 _ _ Ks)) as (ws6 & E6 & V6).
  rewrite (bind_ok _ _ _ _ _ _ _ E6).
  assert (H6 : forall k v, has ws4 k v -> has ws6 k v) by (intros k v Hk; eapply ev_has; [exact V6|intros []|now apply H5]).
  assert (Ku : has ws4 (KStr "updater") updater).
  { eapply ev_has; [exact V4| |now apply H3]. intros (? & _ & E); discriminate. }
  destruct (m_ask_has "updater" INone INone updater o tr4 ws6 (H6 _ _ Ku)) as (ws7 & E7 & V7).
  rewrite (bind_ok _ _ _ _ _ _ _ E7).
  assert (H7 : forall k v, has ws4 k v -> has ws7 k v) by (intros k v Hk; eapply ev_has; [exact V7|intros []|now apply H6]).
  set (cs := map CScalar (flat_map (fun l => match l with IStr _ => [] | _ => [c0 t l] end) (labels n))).
  assert (E8 : m_upd CV P S orc (u_dist (t_upd t)) (u_samples (t_upd t)) cs (St o tr4 ws7) =
    (St o (tr4 ++ [EUpd (u_dist (t_upd t)) (u_samples (t_upd t)) cs (u_new (t_upd t)) (u_weights (t_upd t))])%list ws7,
     Ok (u_new (t_upd t), u_weights (t_upd t)))).
  { unfold m_upd, call_out. cbn [dmp_oracles o_upd st_out st_trace st_db]. unfold cs.
    rewrite (label_costs t F Hn C), U. reflexivity. }
  rewrite (bind_ok _ _ _ _ _ _ _ E8). cbn [fst snd].
  match type of E8 with _ = (St o ?tr _, _) => set (tr8 := tr) end.
  destruct (m_tell_ev (OVec (u_weights (t_upd t))) "weights" i INone o tr8 ws7) as (ws8 & E9 & V8 & H8 & _).
  rewrite (bind_ok _ _ _ _ _ _ _ E9).
  destruct (m_tell_ev (ODist (u_new (t_upd t))) "distribution_new" i INone o tr8 ws8) as (ws9 & E10 & V9 & H9 & _).
  rewrite (bind_ok _ _ _ _ _ _ _ E10).
  exists tr8, ws9. split; [reflexivity|].
  assert (V : ev (high i) ws ws9).
  { eapply ev_weaken; [|eapply ev_trans; [exact V1|eapply ev_trans; [exact V2|eapply ev_trans; [exact V3|eapply ev_trans; [exact V4|
      eapply ev_trans; [exact V5|eapply ev_trans; [exact V6|eapply ev_trans; [exact V7|eapply ev_trans; [exact V8|exact V9]]]]]]]]].
    intros k Hk. repeat (destruct Hk as [Hk|Hk]; [try contradiction|]).
    - eapply at_high; [|exact HL|exact Hk]. cbn; tauto.
    - eapply at_high; [|exact HL|exact Hk]. cbn; tauto.
    - subst k. exists "weights", i, INone. cbn. repeat split; try tauto; try lia. now left.
    - subst k. exists "distribution_new", i, INone. cbn. repeat split; try tauto; try lia. now left. }
  split; [exact V|]. split; [eapply static_ev; [exact V|exact Hs]|].
  assert (NN : forall nm nm' v, In nm all_names -> In nm' all_names -> nm <> nm' -> forall wa wb, ev (eq (kk nm' i INone)) wa wb ->
     has wa (kk nm i INone) v -> has wb (kk nm i INone) v).
  { intros nm nm' v Hin Hin' Hne wa wb Vab H. eapply ev_has; [exact Vab| |exact H]. intros E. apply kk_inj in E; auto; try (now left). destruct E; congruence. }
  split; [|split; [|split]].
  - apply (NN "distribution" "distribution_new" _) with (wa := ws8); try (cbn; tauto); try discriminate; auto.
    apply (NN "distribution" "weights" _) with (wa := ws7); try (cbn; tauto); try discriminate; auto.
  - apply (NN "samples" "distribution_new" _) with (wa := ws8); try (cbn; tauto); try discriminate; auto.
    apply (NN "samples" "weights" _) with (wa := ws7); try (cbn; tauto); try discriminate; auto.
  - apply (NN "weights" "distribution_new" _) with (wa := ws8); try (cbn; tauto); try discriminate; auto.
  - exact H9.
Qed.

Lemma done_ev i t ws ws' : ev (high (Datatypes.S i)) ws ws' -> done i t ws -> done i t ws'.
Proof.
  intros V (A1 & A2 & A3 & A4). repeat split; (eapply ev_has; [exact V| |eassumption]); apply not_high; try (now left); cbn; tauto.
Qed.

Lemma bind_assoc A B C (m : M CV P S A) (k1 : A -> M CV P S B) (k2 : B -> M CV P S C) s :
  bindM CV P S m (fun a => bindM CV P S (k1 a) k2) s = bindM CV P S (bindM CV P S m k1) k2 s.
Proof. unfold bindM. destruct (m s) as [s1 [a|e]]; reflexivity. Qed.

Lemma steps_ok ts : forall t i g q g1 q1 o' d' tr ws s' r,
  like0 q -> task_outs CV S orc n (g, q) t (g1, q1) -> tasks_outs CV S orc n (g1, q1) ts o' ->
  chained t_before t_after (t_after t) ts d' -> Forall t_complete (t :: ts) ->
  ready i t ws -> forall q2,
  steps CV P S category load orc dmp_get dmp_set execute n i (length (t :: ts)) (St (g1, q2) tr ws) = (s', r) ->
  ev (high i) ws (st_db s') /\
  forall j t', nth_error (t :: ts) j = Some t' -> done (i + j) t' (st_db s').
Proof.
  induction ts as [|t2 ts IH]; intros t i g q g1 q1 o' d' tr ws s' r Hq HT HTs HC HF HR q2 H;
    destruct (task_inv g q t _ Hq HT) as (R & F & U & g1' & q1' & Hg & Eo & Hq1); injection Eo as <- <-;
    pose proof (gen_rows _ _ _ _ Hg) as Hn; inversion HF as [|? ? C HF']; subst.
  - cbn [length steps] in H. rewrite bind_assoc in H.
    destruct (one_step i t (g1, q2) tr ws R F Hn C U HR) as (tr1 & ws1 & E1 & V1 & S1 & D1).
    unfold bindM at 1 in H. rewrite E1 in H. replace (Z.of_nat i + 1)%Z with (Z.of_nat (Datatypes.S i)) in H by lia.
    destruct (generate_and_tell CV P S category load orc dmp_set (u_new (t_upd t)) n (Z.of_nat (Datatypes.S i)) (St (g1, q2) tr1 ws1)) as [s2 r2] eqn:Eg.
    apply generate_any in Eg. cbn [st_db] in Eg.
    assert (V2 : ev (high (Datatypes.S i)) ws1 (st_db s2)) by (eapply ev_weaken; [|exact Eg]; intros k; apply gen_high).
    assert (Es : st_db s' = st_db s2) by (destruct r2; cbn in H; injection H as <- _; reflexivity).
    rewrite Es. split.
    + eapply ev_weaken; [|eapply ev_trans; [exact V1|exact V2]]. intros k [Hk|Hk]; [exact Hk|]. eapply high_le; [|exact Hk]. lia.
    + intros [|j] t' Hj; [|destruct j; discriminate]. injection Hj as <-. rewrite Nat.add_0_r. eapply done_ev; eauto.
  - cbn [tasks_outs] in HTs. destruct HTs as (o2 & HT2 & HTs). destruct o2 as [g2 q2'].
    destruct HC as [EC HC].
    destruct (task_inv g1 q1 t2 _ Hq1 HT2) as (R2 & F2 & U2 & g2' & q2'' & Hg2 & Eo2 & Hq2). injection Eo2 as <- <-.
    unfold t_before, t_after in EC. rewrite EC in Hg2.
    pose proof (gen_rows _ _ _ _ Hg2) as Hn2. inversion HF' as [|? ? C2 HF2]; subst.
    change (length (t :: t2 :: ts)) with (Datatypes.S (length (t2 :: ts))) in H. cbn [steps] in H. rewrite bind_assoc in H.
    destruct (one_step i t (g1, q2) tr ws R F Hn C U HR) as (tr1 & ws1 & E1 & V1 & S1 & D1).
    unfold bindM at 1 in H. rewrite E1 in H. replace (Z.of_nat i + 1)%Z with (Z.of_nat (Datatypes.S i)) in H by lia.
    pose proof (label_facts t2 R2 F2 Hn2) as LF2.
    destruct (generate_ok (Datatypes.S i) (xl t2) (pl t2) (vl t2) (cl t2) (c0 t2) (u_new (t_upd t)) n (u_samples (t_upd t2)) g1 g2 q2 tr1 ws1) as (tr2 & ws2 & E2 & V2 & D2 & M2 & P2).
    { apply S1. } { apply S1. } { exact Hg2. }
    { rewrite <- EC. intros l. apply (label_sample t2 Hn2). } { intros l Hl. apply LF2. exact Hl. }
    rewrite E2 in H.
    assert (V2' : ev (high (Datatypes.S i)) ws1 ws2) by (eapply ev_weaken; [|exact V2]; intros k; apply gen_high).
    destruct (IH t2 (Datatypes.S i) g1 q1 g2 q2' o' d' tr2 ws2 s' r Hq1 HT2 HTs HC HF') with (q2 := q2) as (V3 & D3).
    { split; [eapply static_ev; [exact V2'|exact S1]|]. rewrite EC. auto. }
    { exact H. }
    split.
    + eapply ev_weaken; [|eapply ev_trans; [exact V1|eapply ev_trans; [exact V2'|exact V3]]].
      intros k [Hk|[Hk|Hk]]; [exact Hk| |]; (eapply high_le; [|exact Hk]; lia).
    + intros [|j] t' Hj.
      * injection Hj as <-. rewrite Nat.add_0_r. eapply done_ev; [exact V3|]. eapply done_ev; [exact V2'|exact D1].
      * rewrite Nat.add_succ_r. apply (D3 j t' Hj).
Qed.

Lemma tell_has w se v nm iu is : has (tell category w se v nm iu is) (get_base_name nm iu is) v /\
  (forall k x, k <> get_base_name nm iu is -> has (w, se) k x -> has (tell category w se v nm iu is) k x) /\
  s_root (snd (tell category w se v nm iu is)) = s_root se.
Proof.
  unfold SessionModel.tell. split; [|split; [|reflexivity]].
  - exists (length (w_heap w)). cbn [fst snd s_cache w_heap]. rewrite cache_get_set, key_eqb_refl. split; [reflexivity|apply nth_error_snoc_eq].
  - intros k x Hk (a & Ha & Hx). exists a. cbn [fst snd s_cache w_heap] in *. rewrite cache_get_set, (key_eqb_neq _ _ Hk).
    split; [exact Ha|]. rewrite nth_error_snoc_lt; [exact Hx|]. eapply nth_error_lt; eauto.
Qed.
Definition tells (ws : world oval * sess) (kw : list (string * oval)) :=
  fold_left (fun ws nv => tell category (fst ws) (snd ws) (snd nv) (fst nv) INone INone) kw ws.
Lemma tells_has kw : forall ws, s_root (snd (tells ws kw)) = s_root (snd ws) /\
  (forall nm v, In (nm, v) kw -> NoDup (map fst kw) -> has (tells ws kw) (KStr nm) v) /\
  (forall nm v, ~ In nm (map fst kw) -> has ws (KStr nm) v -> has (tells ws kw) (KStr nm) v).
Proof.
  induction kw as [|[nm0 v0] kw IH]; intros ws; cbn [tells fold_left]; [repeat split; auto; intros ? ? []|].
  destruct ws as [w se]. cbn [fst snd]. destruct (tell_has w se v0 nm0 INone INone) as (A1 & A2 & A3).
  specialize (IH (tell category w se v0 nm0 INone INone)). fold (tells (tell category w se v0 nm0 INone INone) kw).
  destruct IH as (I1 & I2 & I3). cbn [map fst snd] in *. split; [congruence|]. split.
  - intros nm v [E|Hin] Hd; inversion Hd; subst; [|auto]. injection E as -> ->. apply I3; auto.
  - intros nm v Hn H. apply I3; [intros X; apply Hn; now right|]. apply A2; [|exact H].
    intros E. injection E as ->. apply Hn. now left.
Qed.

Lemma step_by_step_same wc rc tkc tsv upc d0 k g trc dbc s1 dlast w0 tsv2 tr db q s2 r :
  run_optimization_task CV P S category orc wc rc tkc tsv upc d0 k n (St (g, p0) trc dbc) = (s1, Ok dlast) ->
  bindM CV P S (prepare_optimization CV P S category load orc dmp_set w0 RDir task tsv2 updater d0 n p0)
    (fun _ => steps CV P S category load orc dmp_get dmp_set execute n 0 k) (St (g, q) tr db) = (s2, r) ->
  forall i nm, (i < k)%nat -> In nm ["distribution"; "samples"; "weights"; "distribution_new"] ->
  exists v, stored load (st_db s1) nm i INone v /\ stored load (st_db s2) nm i INone v.
Proof.
  intros HC HS i nm Hi Hnm.
  apply (run_optimization_task_full CV P S category load orc) in HC.
  destruct HC as (ts & dl & rest & cs & es & Ch & Co & _ & St & _ & _ & _ & Hk & _ & _ & HO).
  cbn [st_out] in HO. destruct ts as [|t ts]; [cbn in Hk; lia|]. cbn [tasks_outs] in HO. destruct HO as ([g1 q1] & HT & HTs).
  assert (L0 : like0 p0) by (intros y; reflexivity).
  destruct (task_inv g p0 t _ L0 HT) as (R & F & U & g1' & q1' & Hg & Eo & Hq1). injection Eo as <- <-.
  pose proof (gen_rows _ _ _ _ Hg) as Hn. inversion Co as [|? ? C Co']; subst.
  destruct Ch as [E0 Ch]. unfold t_before in E0.
  set (ws0 := new_session category OInt w0 n RDir [("task", task); ("task_solver", tsv2); ("distribution_initial", ODist d0); ("updater", updater); ("dmp_initial", ODmp p0)]).
  assert (S0 : static ws0).
  { unfold ws0, new_session.
    destruct (tell_has w0 (Sess n RDir [] None) (OInt n) "n_samples_per_update" INone INone) as (A1 & _ & A3).
    destruct (tell category w0 (Sess n RDir [] None) (OInt n) "n_samples_per_update" INone INone) as [w1 se1].
    match goal with |- static (fold_left _ ?kw _) => destruct (tells_has kw (w1, se1)) as (B1 & B2 & B3); fold (tells (w1, se1) kw) end.
    assert (ND : NoDup (map fst [("task", task); ("task_solver", tsv2); ("distribution_initial", ODist d0); ("updater", updater); ("dmp_initial", ODmp p0)])).
    { cbn. repeat constructor; cbn; intuition discriminate. }
    split; [rewrite B1; exact A3|]. split; [apply B3; [cbn; intuition discriminate|exact A1]|].
    repeat split; apply B2; auto; cbn; tauto. }
  pose proof (label_facts t R F Hn) as LF.
  destruct (generate_ok 0 (xl t) (pl t) (vl t) (cl t) (c0 t) d0 n (u_samples (t_upd t)) g g1 q tr ws0) as (tr2 & ws2 & E2 & V2 & D2 & M2 & P2).
  { apply S0. } { apply S0. } { rewrite <- E0. exact Hg. }
  { rewrite <- E0. intros l. apply (label_sample t Hn). } { intros l Hl. apply LF. exact Hl. }
  unfold bindM at 1, prepare_optimization in HS. cbn [st_out st_trace] in HS. change 0%Z with (Z.of_nat 0) in HS. fold ws0 in HS. rewrite E2 in HS.
  destruct (steps_ok ts t 0 g p0 g1 q1 (st_out s1) dl tr2 ws2 s2 r L0 HT HTs Ch Co) with (q2 := q) as (_ & D).
  { split; [|rewrite E0; auto]. eapply static_ev; [|exact S0]. eapply ev_weaken; [|exact V2]. intros k; apply (gen_high 0). }
  { exact HS. }
  destruct (nth_error (t :: ts) i) as [t'|] eqn:Et; [|apply nth_error_None in Et; lia].
  specialize (St i t' Et). specialize (D i t' Et). cbn [Nat.add] in D.
  destruct St as ((X1 & X2 & X3 & X4 & X5 & _) & _). destruct D as (Y1 & Y2 & Y3 & Y4).
  destruct Hnm as [<-|[<-|[<-|[<-|[]]]]]; eexists; (split; [eassumption|apply has_stored; eassumption]).
Qed.
End P.
