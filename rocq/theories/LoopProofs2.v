(** What is on the disk when an optimization ends, normally or with an exception *)
From Coq Require Import String Ascii NArith.
From Verif Require Import Base BaseLemmas SessionModel SessionSpec SessionStrings SessionProofs SessionProofs2 SessionProofs3 SessionProofs4
  UpdatersModel LoopModel LoopSpec LoopProofs.
Open Scope string_scope.

Section G.
Variable V : Type.
Variable category : V -> ext.
Variable load : ext -> V -> V.
Variable of_int : Z -> V.
Variable to_int : V -> option Z.

Lemma in_update_log b i es nm v : In (get_base_name nm (IInt (Z.of_nat i)) INone, v) (update_log V b es) -> b = i /\ In (nm, v) es.
Proof.
  unfold update_log. intros H. apply in_map_iff in H. destruct H as ([n x] & E & H). cbn [fst snd] in E.
  pose proof (f_equal fst E) as E'. pose proof (f_equal snd E) as Ex. cbn [fst snd] in E', Ex. subst x.
  apply gbn_eq in E'. destruct E' as [-> E']. cbn in E'. subst. auto.
Qed.
Lemma in_update_logs ess nm i v : forall b, In (get_base_name nm (IInt (Z.of_nat (b + i))) INone, v) (update_logs V b ess) ->
  exists es, nth_error ess i = Some es /\ In (nm, v) es.
Proof.
  assert (G : forall ess b i, In (get_base_name nm (IInt (Z.of_nat i)) INone, v) (update_logs V b ess) ->
    exists j es, i = (b + j)%nat /\ nth_error ess j = Some es /\ In (nm, v) es).
  { clear. induction ess as [|es ess IH]; intros b i H; [destruct H|]. cbn [update_logs] in H.
    apply in_app_or in H. destruct H as [H|H].
    - apply in_update_log in H. destruct H as [-> H]. exists 0%nat, es. rewrite Nat.add_0_r. auto.
    - apply IH in H. destruct H as (j & es' & -> & H). exists (Datatypes.S j), es'. split; [lia|exact H]. }
  intros b H. apply G in H. destruct H as (j & es & E & H). assert (j = i) by lia. subst. eauto.
Qed.

Definition plain_entries (es : list (string * V)) : Prop := Forall (fun e => plain_string (fst e)) es.
Lemma update_log_plain i es : plain_entries es -> PlainLog V (update_log V i es).
Proof.
  intros H k v Hin. unfold update_log in Hin. apply in_map_iff in Hin. destruct Hin as ([n x] & E & Hin).
  pose proof (f_equal fst E) as E'. cbn [fst snd] in E'. rewrite <- E'. apply base_plain; [|exact I]. unfold plain_entries in H. rewrite Forall_forall in H. apply (H _ Hin).
Qed.
Lemma update_logs_plain ess : Forall plain_entries ess -> forall b, PlainLog V (update_logs V b ess).
Proof.
  induction 1 as [|es ess H Hs IH]; intros b k v Hin; [destruct Hin|]. cbn [update_logs] in Hin.
  apply in_app_or in Hin. destruct Hin as [Hin|Hin]; [eapply update_log_plain; eauto|eapply IH; eauto].
Qed.

(** the entry of a name that occurs once *)
Lemma nodup_unique (es : list (string * V)) n v v' : NoDup (map fst es) -> In (n, v) es -> In (n, v') es -> v = v'.
Proof.
  induction es as [|[m x] es IH]; intros Hd; [intros []|]. cbn in Hd. inversion Hd; subst.
  intros [E|H] [E'|H'].
  - congruence.
  - injection E as -> ->. exfalso. apply H1. apply in_map_iff. exists (n, v'). auto.
  - injection E' as -> ->. exfalso. apply H1. apply in_map_iff. exists (n, v). auto.
  - auto.
Qed.
Lemma recent_in (es : list (string * V)) n v : recent V n es = Some v -> In (n, v) es.
Proof.
  induction es as [|[m x] es IH]; [discriminate|]. cbn [recent]. destruct (recent V n es).
  - intros E. right. auto.
  - destruct (String.eqb_spec n m) as [->|]; [|discriminate]. intros E. injection E as ->. now left.
Qed.

Lemma reopen_updates w0 n kwargs cs ess rest heap ow :
  d_files (w_disk w0) = [] ->
  (forall m, category (of_int m) = Txt) -> (forall m, to_int (load Txt (of_int m)) = Some m) ->
  Forall (fun nv => plain_string (fst nv) /\ fst nv <> "n_samples_per_update") kwargs ->
  flat_map call_log cs = (update_logs V 0 ess ++ update_log V (length ess) rest)%list ->
  Forall plain_entries ess -> plain_entries rest ->
  let ws := do_calls category (new_session category of_int w0 n RDir kwargs) cs in
  exists w1 s1,
    from_dir category load of_int to_int (World heap (w_disk (fst ws)) ow) = Ok (w1, s1) /\ s_n s1 = n /\
    forall asks i es nm is v, only_asks asks -> nth_error ess i = Some es -> NoDup (map fst es) ->
      recent V (sample_name nm is) es = Some v ->
      let ws1 := run category load (w1, s1) asks in
      returns (ask load (fst ws1) (snd ws1) nm (IInt (Z.of_nat i)) is) (load (category v) v).
Proof.
  intros Hd Hc Ht Hkw Hlog Hp Hpr ws.
  set (log := (told_new of_int n kwargs ++ flat_map call_log cs)%list).
  assert (HD : DInv V category log ws).
  { apply do_calls_dinv. now apply new_session_dinv. }
  assert (HP : PlainLog V log).
  { apply plain_app; [apply told_new_plain; eapply Forall_impl; [|exact Hkw]; cbn; tauto|].
    rewrite Hlog. apply plain_app; [now apply update_logs_plain|now apply update_log_plain]. }
  assert (Hnu : forall b es v, ~ In (n_key, v) (update_log V b es)).
  { intros b es v Hin. unfold update_log in Hin. apply in_map_iff in Hin. destruct Hin as ([? ?] & E & _). discriminate. }
  assert (Hnus : forall ess b v, ~ In (n_key, v) (update_logs V b ess)).
  { clear - Hnu. induction ess as [|es ess IH]; intros b v Hin; [destruct Hin|]. cbn in Hin. apply in_app_or in Hin.
    destruct Hin as [Hin|Hin]; [eapply Hnu|eapply IH]; eauto. }
  assert (Hno : forall v, In (n_key, v) log -> v = of_int n).
  { intros v Hin. unfold log in Hin. apply in_app_or in Hin. destruct Hin as [[E|Hin]|Hin].
    - injection E as ->; reflexivity.
    - apply in_map_iff in Hin. destruct Hin as ([nm x] & E & Hin). injection E as E <-.
      rewrite Forall_forall in Hkw. exfalso. apply (proj2 (Hkw _ Hin)). exact E.
    - exfalso. rewrite Hlog in Hin. apply in_app_or in Hin. destruct Hin as [Hin|Hin]; [eapply Hnus|eapply Hnu]; eauto. }
  assert (Hl : latest n_key log = Some (of_int n)).
  { destruct (latest n_key log) as [v|] eqn:E.
    - f_equal. apply Hno. now apply latest_in.
    - exfalso. unfold log in E. rewrite latest_app in E. destruct (latest n_key (flat_map _ _)); [discriminate|].
      unfold told_new in E. cbn [latest] in E. destruct (latest n_key (map _ _)); [discriminate|].
      rewrite key_eqb_refl in E. discriminate. }
  assert (Ex : exists w1 s1, from_dir category load of_int to_int (World heap (w_disk (fst ws)) ow) = Ok (w1, s1) /\ s_n s1 = n).
  { unfold SessionModel.from_dir. cbn [w_disk]. destruct HD as [_ HD]. rewrite HD.
    destruct (find_log V category n_key Txt log) as [F _].
    { intros k' v' Hin Hpa. assert (k' = n_key) as ->.
      { apply plain_path_inj; eauto. cbn. repeat split; discriminate. }
      split; [reflexivity|]. now rewrite (Hno _ Hin). }
    rewrite Hl in F. change (path n_key) with "n_samples_per_update" in F. rewrite F, Ht.
    eexists _, _. split; [reflexivity|]. reflexivity. }
  destruct Ex as (w1 & s1 & Ef & Es). exists w1, s1. split; [exact Ef|]. split; [exact Es|].
  intros asks i es nm is v Ho Hi Hn Hr.
  set (k := get_base_name nm (IInt (Z.of_nat i)) is).
  assert (Ek : k = get_base_name (sample_name nm is) (IInt (Z.of_nat i)) INone) by apply gbn_str.
  assert (Hin0 : forall v', In (k, v') log -> In (sample_name nm is, v') es).
  { intros v' Hin. unfold log in Hin. apply in_app_or in Hin. destruct Hin as [Hin|Hin].
    - exfalso. rewrite Ek in Hin. destruct Hin as [E|Hin]; [discriminate|].
      apply in_map_iff in Hin. destruct Hin as (? & E & _). discriminate.
    - rewrite Hlog, Ek in Hin. apply in_app_or in Hin. destruct Hin as [Hin|Hin].
      + apply (in_update_logs ess _ i v' 0) in Hin. destruct Hin as (es' & E & Hin). congruence.
      + apply in_update_log in Hin. destruct Hin as [E Hin]. exfalso.
        assert (i < length ess)%nat by (apply nth_error_Some; congruence). lia. }
  assert (Hlat : latest k log = Some v).
  { unfold log. rewrite latest_app, Hlog, latest_app, Ek.
    assert (Hnone : latest (get_base_name (sample_name nm is) (IInt (Z.of_nat i)) INone) (update_log V (length ess) rest) = None).
    { destruct (latest _ (update_log V (length ess) rest)) eqn:E; [|reflexivity]. exfalso.
      apply latest_in in E. apply in_update_log in E. destruct E as [E _].
      assert (i < length ess)%nat by (apply nth_error_Some; congruence). lia. }
    rewrite Hnone. pose proof (latest_logs V 0 ess i es (sample_name nm is) v Hi Hr) as E. cbn [Nat.add] in E. now rewrite E. }
  assert (Pk : plain_key k).
  { apply (HP k v). now apply latest_in. }
  eapply (from_dir_ask V category load of_int to_int (World heap (w_disk (fst ws)) ow) w1 s1 k); eauto.
  - intros E. assert (k = n_key) by (apply plain_path_inj; auto; cbn; repeat split; discriminate). rewrite Ek in H. discriminate.
  - destruct HD as [_ HD]. cbn [w_disk]. destruct (w_disk (fst ws)) as [fs dirs] eqn:Ew. cbn in HD.
    apply (load_log V category load k log v); [|exact Hlat|intros e; now rewrite HD].
    intros k' v' Hin Hpa. assert (k' = k) as -> by (apply plain_path_inj; eauto). split; [reflexivity|].
    f_equal. apply (nodup_unique es (sample_name nm is)); auto. now apply recent_in.
Qed.
End G.

Section P.
Variables CV P S : Type.
Notation oval := (oval CV P).
Variable category : oval -> ext.
Variable load : ext -> oval -> oval.
Variable to_int : oval -> option Z.
Variable orc : oracles CV S.
Notation st := (st CV P S).

Ltac plain := repeat (first [apply conj | discriminate | exact I]).
Lemma opt_entries_plain u : plain_entries oval (opt_entries CV P u).
Proof. unfold plain_entries, opt_entries. repeat constructor; cbn; plain. Qed.
Lemma opt_entries_nodup u : NoDup (map fst (opt_entries CV P u)).
Proof. cbn. repeat constructor; cbn; intuition discriminate. Qed.

Lemma task_entries_plain t : plain_entries oval (task_entries CV P t).
Proof.
  unfold task_entries. apply Forall_app. split; [repeat constructor; cbn; plain|].
  apply Forall_app. split; [apply rolls_plain|repeat constructor; cbn; plain].
Qed.

(** names of the rollouts *)
Lemma rolls_names xs nm : forall b vcs, In nm (map fst (rolls_entries CV P b xs vcs)) ->
  exists j n, (b <= j)%nat /\ nm = sample_name n (IInt (Z.of_nat j)).
Proof.
  induction xs as [|x xs IH]; intros b [|vc vcs]; intros H; try contradiction.
  cbn [rolls_entries] in H. rewrite map_app in H. apply in_app_or in H. destruct H as [H|H].
  - cbn [roll_entries map fst] in H. destruct H as [<-|[<-|[<-|[]]]]; exists b; eexists; split; auto.
  - apply IH in H. destruct H as (j & n & Hj & E). exists j, n. split; [lia|exact E].
Qed.
Lemma rolls_nodup xs : forall b vcs, NoDup (map fst (rolls_entries CV P b xs vcs)).
Proof.
  induction xs as [|x xs IH]; intros b [|vc vcs]; try (apply NoDup_nil). cbn [rolls_entries]. rewrite map_app.
  assert (L : forall n, ~ In (sample_name n (IInt (Z.of_nat b))) (map fst (rolls_entries CV P (Datatypes.S b) xs vcs))).
  { intros n H. apply rolls_names in H. destruct H as (j & n' & Hj & E).
    apply String.eqb_eq in E. rewrite label_eqb in E. apply andb_prop in E. destruct E as [E _].
    apply Nat.eqb_eq in E. lia. }
  assert (N : forall n n', n <> n' -> sample_name n (IInt (Z.of_nat b)) <> sample_name n' (IInt (Z.of_nat b))).
  { intros n n' Hn E. apply String.eqb_eq in E. rewrite label_eqb in E. apply andb_prop in E. destruct E as [_ E].
    apply String.eqb_eq in E. contradiction. }
  cbn [roll_entries map fst app].
  repeat (apply NoDup_cons; [cbn [In]; intros H; repeat (destruct H as [H|H]; [revert H; apply N; discriminate|]); exact (L _ H)|]).
  apply IH.
Qed.
Lemma nodup_app {A} (l l' : list A) : NoDup l -> NoDup l' -> (forall x, In x l -> ~ In x l') -> NoDup (l ++ l').
Proof.
  induction l as [|x l IH]; intros H H' D; [exact H'|]. inversion H; subst. cbn. constructor.
  - intros Hin. apply in_app_or in Hin. destruct Hin as [Hin|Hin]; [contradiction|]. apply (D x); [now left|exact Hin].
  - apply IH; auto. intros y Hy. apply D. now right.
Qed.
Lemma task_entries_nodup t : NoDup (map fst (task_entries CV P t)).
Proof.
  unfold task_entries. rewrite !map_app.
  assert (Lit : forall c r n j, is_digit c = false -> String c r <> sample_name n (IInt (Z.of_nat j))).
  { intros c r n j Hc E. apply String.eqb_eq in E. rewrite literal_label in E by exact Hc. discriminate. }
  apply nodup_app; [cbn; repeat constructor; cbn; intuition discriminate| |].
  - apply nodup_app; [apply rolls_nodup|cbn; repeat constructor; cbn; intuition discriminate|].
    intros x Hx Hy. apply rolls_names in Hx. destruct Hx as (j & n & _ & ->). cbn [map fst In] in Hy.
    repeat (destruct Hy as [Hy|Hy]; [revert Hy; apply Lit; reflexivity|]). exact Hy.
  - intros x Hx Hy. apply in_app_or in Hy. destruct Hy as [Hy|Hy].
    + apply rolls_names in Hy. destruct Hy as (j & n & _ & ->). cbn [map fst In] in Hx.
      repeat (destruct Hx as [Hx|Hx]; [revert Hx; apply Lit; reflexivity|]). exact Hx.
    + cbn in Hx, Hy. intuition (subst; discriminate).
Qed.

(** ** run_optimization *)
Lemma run_optimization_reopen w0 cf up d0 k n (s s' : st) res heap ow :
  d_files (w_disk w0) = [] ->
  (forall m, category (OInt m) = Txt) -> (forall m, to_int (load Txt (OInt m)) = Some m) ->
  run_optimization CV P S category orc w0 RDir cf up d0 k n s = (s', res) ->
  exists us dlast rest w1 s1,
    chained u_dist u_new d0 us dlast /\
    st_trace s' = (st_trace s ++ flat_map (events_of n) us ++ rest)%list /\
    match res with
    | Ok d' => length us = k /\ d' = dlast /\ rest = []
    | Err _ => (length us < k)%nat /\ interrupted n dlast rest
    end /\
    from_dir category load OInt to_int (World heap (w_disk (fst (st_db s'))) ow) = Ok (w1, s1) /\ s_n s1 = n /\
    forall asks i u, only_asks asks -> nth_error us i = Some u ->
      opt_reloaded category load (run category load (w1, s1) asks) i u.
Proof.
  intros Hd Hc Ht H. apply (run_optimization_full CV P S category load orc) in H.
  destruct H as (us & dl & rest & cs & C & F & T & _ & D & LG & R).
  destruct (reopen_updates oval category load OInt to_int w0 n [("cost_function", cf); ("updater", up)] cs
    (map (opt_entries CV P) us) [] heap ow) as (w1 & s1 & Ef & Es & G); auto.
  - repeat constructor; cbn; plain.
  - cbn. now rewrite app_nil_r.
  - apply Forall_forall. intros es Hes. apply in_map_iff in Hes. destruct Hes as (u & <- & _). apply opt_entries_plain.
  - apply Forall_nil.
  - exists us, dl, rest, w1, s1. split; [exact C|]. split; [exact T|]. split; [exact R|]. rewrite D. split; [exact Ef|]. split; [exact Es|].
    intros asks i u Ho Hi.
    assert (G' : forall nm is v, recent oval (sample_name nm is) (opt_entries CV P u) = Some v ->
      stored load (run category load (w1, s1) asks) nm i is (load (category v) v)).
    { intros nm is v Hr. apply (G asks i (opt_entries CV P u) nm is v Ho); [now apply map_nth_error|apply opt_entries_nodup|exact Hr]. }
    repeat split; apply G'; reflexivity.
Qed.

(** ** run_optimization_task *)
Lemma run_optimization_task_reopen w0 tk tsv up d0 k n (s s' : st) res heap ow :
  d_files (w_disk w0) = [] ->
  (forall m, category (OInt m) = Txt) -> (forall m, to_int (load Txt (OInt m)) = Some m) ->
  run_optimization_task CV P S category orc w0 RDir tk tsv up d0 k n s = (s', res) ->
  exists ts dlast rest w1 s1,
    chained t_before t_after d0 ts dlast /\
    st_trace s' = (st_trace s ++ flat_map (task_events n) ts ++ rest)%list /\
    match res with
    | Ok d' => length ts = k /\ d' = dlast /\ rest = []
    | Err _ => (length ts < k)%nat /\ interrupted_task n dlast rest
    end /\
    from_dir category load OInt to_int (World heap (w_disk (fst (st_db s'))) ow) = Ok (w1, s1) /\ s_n s1 = n /\
    forall asks i t, only_asks asks -> nth_error ts i = Some t ->
      task_reloaded category load (run category load (w1, s1) asks) i t.
Proof.
  intros Hd Hc Ht H. apply (run_optimization_task_full CV P S category load orc) in H.
  destruct H as (ts & dl & rest & cs & es & C & F & T & _ & D & LG & PL & R).
  destruct (reopen_updates oval category load OInt to_int w0 n [("task", tk); ("task_solver", tsv); ("updater", up)] cs
    (map (task_entries CV P) ts) es heap ow) as (w1 & s1 & Ef & Es & G); auto.
  - repeat constructor; cbn; plain.
  - now rewrite map_length.
  - apply Forall_forall. intros es' Hes. apply in_map_iff in Hes. destruct Hes as (u & <- & _). apply task_entries_plain.
  - exists ts, dl, rest, w1, s1. split; [exact C|]. split; [exact T|]. split; [destruct res; tauto|]. rewrite D. split; [exact Ef|]. split; [exact Es|].
    intros asks i t Ho Hi. apply task_entries_hold.
    + intros nm is v Hr. apply (G asks i (task_entries CV P t) nm is v Ho); [now apply map_nth_error|apply task_entries_nodup|exact Hr].
    + rewrite Forall_forall in F. apply F. eapply nth_error_In; eauto.
Qed.
End P.
