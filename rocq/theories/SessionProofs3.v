(** get_n_updates; stability of ask/exists under asks; add_eval *)
From Coq Require Import String Ascii NArith.
From Verif Require Import Base BaseLemmas SessionModel SessionSpec SessionStrings SessionProofs SessionProofs2.
Open Scope string_scope.

Lemma glob_fmt z : (0 <= z)%Z -> glob_suffix ("update" ++ fmt 5 z) = Some (fmt 5 z).
Proof.
  intros Hz. unfold glob_suffix.
  assert (P : forall s, String.prefix "update" ("update" ++ s) = true).
  { intros s. cbn. destruct s; reflexivity. }
  rewrite P.
  assert (S : forall s, String.substring 6 (String.length ("update" ++ s) - 6) ("update" ++ s) = s).
  { intros s. cbn [String.append String.length]. replace (_ - 6)%nat with (String.length s) by lia.
    cbn [String.substring]. induction s as [|c s IH]; [reflexivity|]. cbn. now rewrite IH. }
  rewrite S. pose proof (fmt_digits 5 z Hz) as D. pose proof (fmt_nonempty 5 z) as Nn.
  destruct (fmt 5 z) as [|c r]; [contradiction|]. cbn in D. destruct D as [-> _]. reflexivity.
Qed.


Lemma str_max_fmt a b : small a -> small b -> str_max (fmt 5 a) (fmt 5 b) = fmt 5 (Z.max a b).
Proof.
  intros Ha Hb. unfold str_max, String.ltb. rewrite compare_fmt5 by assumption.
  destruct (Z.compare_spec a b) as [->|H|H].
  - now rewrite Z.max_id. - rewrite Z.max_r by lia. reflexivity. - rewrite Z.max_l by lia. reflexivity.
Qed.

Lemma last_sorted_fmt js m : Forall small js -> In m js -> (forall j, In j js -> (j <= m)%Z) ->
  last_sorted (map (fmt 5) js) = Some (fmt 5 m).
Proof.
  assert (G : forall js, Forall small js -> js <> [] -> exists m, last_sorted (map (fmt 5) js) = Some (fmt 5 m) /\ In m js /\ (forall j, In j js -> (j <= m)%Z)).
  { clear. induction js as [|j js IH]; intros Hs Hn; [contradiction|]. inversion Hs; subst.
    destruct js as [|j' js].
    - exists j. cbn. repeat split; auto. intros j0 [->|[]]; lia.
    - destruct (IH H2) as (m & E & Hin & Hmax); [discriminate|].
      exists (Z.max j m). cbn [map last_sorted]. cbn [map last_sorted] in E. rewrite E.
      assert (small m) by (rewrite Forall_forall in H2; auto).
      rewrite str_max_fmt by assumption. split; [reflexivity|]. split.
      + destruct (Z.max_spec j m) as [[_ ->]|[_ ->]]; [right; exact Hin|now left].
      + intros j0 [->|H0]; [lia|]. specialize (Hmax _ H0). lia. }
  intros Hs Hin Hmax. destruct (G js Hs) as (m' & E & Hin' & Hmax'); [intros ->; contradiction|].
  rewrite E. f_equal. f_equal. specialize (Hmax _ Hin'). specialize (Hmax' _ Hin). lia.
Qed.

Section S3.
Variable V : Type.
Variable category : V -> ext.
Variable load : ext -> V -> V.
Variable of_int : Z -> V.
Notation tell := (tell category).
Notation ask := (ask load).
Notation run := (run category load).
Notation new_session := (new_session category of_int).
Notation do_call := (do_call category).
Notation do_calls := (do_calls category).

(** directories of the update numbers js *)
Definition DirInv (js : list Z) (ws : world V * sess) : Prop :=
  s_root (snd ws) = RDir /\
  exists ds, d_dirs (w_disk (fst ws)) = map (fun j => "update" ++ fmt 5 j) ds /\
    (forall j, In j ds <-> In j js).

Lemma str_mem_in s l : str_mem s l = true <-> In s l.
Proof.
  unfold str_mem. rewrite existsb_exists. split.
  - intros (x & Hin & E). apply String.eqb_eq in E. now subst.
  - intros H. exists s. split; [exact H|apply String.eqb_refl].
Qed.

Lemma tell_dir js w s v name iu is : Forall (fun z => (0 <= z)%Z) js ->
  DirInv js (w, s) ->
  match iu with
  | IInt i => (0 <= i)%Z -> DirInv (js ++ [i]) (tell w s v name iu is)
  | _ => DirInv js (tell w s v name iu is)
  end.
Proof.
  intros Hjs (Hr & ds & Hd & Hi). cbn [fst snd] in *.
  unfold SessionModel.tell, DirInv. cbn [fst snd s_root w_disk]. rewrite Hr. cbn [not_none].
  destruct iu as [|i|i|t]; cbn [save d_dirs update_dir].
  - split; [reflexivity|]. exists ds. auto.
  - intros Hi0. split; [reflexivity|]. rewrite Hd.
    destruct (str_mem ("update" ++ fmt 5 i) _) eqn:E.
    + apply str_mem_in in E. apply in_map_iff in E. destruct E as (j & E & Hin).
      assert (j = i) as ->.
      { apply fmt_inj with (w := 5%nat); [|exact Hi0|].
        - rewrite Forall_forall in Hjs. apply Hjs. now apply Hi.
        - cbn in E. repeat (injection E as E). exact E. }
      exists ds. split; [reflexivity|]. intros j. rewrite in_app_iff, Hi. split; [auto|].
      intros [H|[->|[]]]; [exact H|]. now apply Hi.
    + exists (ds ++ [i])%list. rewrite map_app. split; [reflexivity|].
      intros j. rewrite !in_app_iff, Hi. reflexivity.
  - split; [reflexivity|]. exists ds. auto.
  - split; [reflexivity|]. exists ds. auto.
Qed.


Lemma dir_weaken js js' ws : (forall j, In j js <-> In j js') -> DirInv js ws -> DirInv js' ws.
Proof.
  intros H (Hr & ds & Hd & Hi). split; [exact Hr|]. exists ds. split; [exact Hd|]. intros j. rewrite Hi. apply H.
Qed.

Lemma s_last_dir js w s l : DirInv js (w, s) -> DirInv js (w, Sess (s_n s) (s_root s) (s_cache s) l).
Proof. intros H. exact H. Qed.

Lemma do_call_dir js ws c : Forall (fun z => (0 <= z)%Z) js ->
  (forall i, update_of c = Some i -> (0 <= i)%Z) ->
  DirInv js ws -> DirInv (js ++ updates_of [c]) (do_call ws c).
Proof.
  intros Hjs Hc H. destruct ws as [w s]. destruct c as [v name iu is|i x y|i d sm co we dn];
    cbn [updates_of filter_some update_of SessionSpec.do_call fst snd].
  - pose proof (tell_dir js w s v name iu is Hjs H) as T. cbn [update_of] in Hc. destruct iu; cbn [filter_some];
      try (rewrite app_nil_r; exact T). apply T. now apply Hc.
  - specialize (Hc i eq_refl). unfold add_eval.
    pose proof (tell_dir js w s y "eval_cost" (IInt i) INone Hjs H Hc) as T1.
    destruct (tell w s y "eval_cost" (IInt i) INone) as [w1 s1].
    assert (Hjs1 : Forall (fun z => (0 <= z)%Z) (js ++ [i])) by (apply Forall_app; auto).
    pose proof (tell_dir _ w1 s1 x "eval_sample" (IInt i) INone Hjs1 T1 Hc) as T2.
    eapply dir_weaken; [|exact T2]. intros j. rewrite !in_app_iff. tauto.
  - specialize (Hc i eq_refl). unfold add_update.
    assert (Hjs1 : Forall (fun z => (0 <= z)%Z) (js ++ [i])) by (apply Forall_app; auto).
    assert (W : forall ws', DirInv ((js ++ [i]) ++ [i]) ws' -> DirInv (js ++ [i]) ws').
    { intros ws'. apply dir_weaken. intros j. rewrite !in_app_iff. tauto. }
    pose proof (tell_dir js w s d "distribution" (IInt i) INone Hjs H Hc) as T1.
    destruct (tell w s d "distribution" (IInt i) INone) as [w1 s1].
    pose proof (W _ (tell_dir _ w1 s1 sm "samples" (IInt i) INone Hjs1 T1 Hc)) as T2.
    destruct (tell w1 s1 sm "samples" (IInt i) INone) as [w2 s2].
    pose proof (W _ (tell_dir _ w2 s2 co "costs" (IInt i) INone Hjs1 T2 Hc)) as T3.
    destruct (tell w2 s2 co "costs" (IInt i) INone) as [w3 s3].
    pose proof (W _ (tell_dir _ w3 s3 we "weights" (IInt i) INone Hjs1 T3 Hc)) as T4.
    destruct (tell w3 s3 we "weights" (IInt i) INone) as [w4 s4].
    destruct dn as [dn|].
    + pose proof (W _ (tell_dir _ w4 s4 dn "distribution_new" (IInt i) INone Hjs1 T4 Hc)) as T5.
      destruct (tell w4 s4 dn "distribution_new" (IInt i) INone) as [w5 s5]. exact T5.
    + exact T4.
Qed.

Lemma updates_cons (c : call V) cs : updates_of (c :: cs) = (updates_of [c] ++ updates_of cs)%list.
Proof. unfold updates_of. cbn. destruct (update_of c); reflexivity. Qed.

Lemma do_calls_dir cs js ws : Forall (fun z => (0 <= z)%Z) js ->
  Forall (fun z => (0 <= z)%Z) (updates_of cs) ->
  DirInv js ws -> DirInv (js ++ updates_of cs) (do_calls ws cs).
Proof.
  revert js ws; induction cs as [|c cs IH]; intros js ws Hjs Hcs H.
  - cbn. now rewrite app_nil_r.
  - rewrite updates_cons in *. apply Forall_app in Hcs. destruct Hcs as [H1 H2].
    change (do_calls ws (c :: cs)) with (do_calls (do_call ws c) cs). rewrite app_assoc.
    apply IH; [apply Forall_app; auto|exact H2|]. apply do_call_dir; auto.
    intros i E. unfold updates_of in H1. cbn in H1. rewrite E in H1. now inversion H1.
Qed.

Lemma new_session_dir w0 n kwargs : d_dirs (w_disk w0) = [] -> DirInv [] (new_session w0 n RDir kwargs).
Proof.
  intros H. unfold SessionModel.new_session.
  assert (H0 : DirInv [] (w0, Sess n RDir [] None)).
  { split; [reflexivity|]. exists []. split; [exact H|reflexivity]. }
  pose proof (tell_dir [] w0 _ (of_int n) "n_samples_per_update" INone INone (Forall_nil _) H0) as T.
  destruct (tell w0 _ (of_int n) "n_samples_per_update" INone INone) as [w1 s1].
  revert T. generalize (w1, s1) as ws. induction kwargs as [|[nm v] kw IH]; intros ws T; [exact T|].
  cbn [fold_left fst snd]. apply IH. destruct ws as [w s].
  exact (tell_dir [] w s v nm INone INone (Forall_nil _) T).
Qed.

Lemma n_updates_dir w0 n kwargs cs m :
  d_dirs (w_disk w0) = [] ->
  Forall small (updates_of cs) -> In m (updates_of cs) ->
  (forall j, In j (updates_of cs) -> (j <= m)%Z) ->
  let ws := do_calls (new_session w0 n RDir kwargs) cs in
  get_n_updates (fst ws) (snd ws) = Ok (Some m).
Proof.
  intros Hd Hs Hm Hmax ws.
  assert (H : DirInv ([] ++ updates_of cs) ws).
  { apply do_calls_dir; [constructor| |now apply new_session_dir].
    eapply Forall_impl; [|exact Hs]. intros z [Hz _]. exact Hz. }
  destruct H as (Hr & ds & Hds & Hi). cbn [app] in Hi. unfold get_n_updates. rewrite Hr. cbn [truthy negb].
  assert (Sd : Forall small ds) by (rewrite Forall_forall in *; intros x Hx; apply Hs; now apply Hi).
  rewrite Hds.
  replace (filter_some glob_suffix (map (fun j => "update" ++ fmt 5 j) ds)) with (map (fmt 5) ds).
  - rewrite (last_sorted_fmt ds m); auto; [|now apply Hi|intros j Hj; apply Hmax; now apply Hi].
    assert (Sm : small m) by (rewrite Forall_forall in Hs; auto).
    assert (P := parse_fmt 5 m (proj1 Sm)). unfold parse_int. pose proof (fmt_nonempty 5 m).
    destruct (fmt 5 m); [contradiction|]. rewrite P. cbn. rewrite Z2N.id by apply Sm. reflexivity.
  - clear - Sd. induction ds as [|d ds IH]; [reflexivity|]. inversion Sd; subst. cbn [map filter_some].
    rewrite glob_fmt by apply H1. now rewrite IH.
Qed.

Lemma n_updates_dir_none w0 n kwargs cs :
  d_dirs (w_disk w0) = [] -> updates_of cs = [] ->
  let ws := do_calls (new_session w0 n RDir kwargs) cs in
  get_n_updates (fst ws) (snd ws) = Err IndexError.
Proof.
  intros Hd Hs ws.
  assert (H : DirInv ([] ++ updates_of cs) ws).
  { apply do_calls_dir; [constructor|rewrite Hs; constructor|now apply new_session_dir]. }
  rewrite Hs in H. destruct H as (Hr & ds & Hds & Hi). unfold get_n_updates. rewrite Hr. cbn [truthy negb].
  destruct ds as [|d ds]; [|exfalso; apply (Hi d); now left]. rewrite Hds. reflexivity.
Qed.


Lemma tell_slast w s v name iu is : s_last (snd (tell w s v name iu is)) = s_last s /\ s_root (snd (tell w s v name iu is)) = s_root s.
Proof. split; reflexivity. Qed.

Lemma do_call_slast ws c :
  s_last (snd (do_call ws c)) = match c with CUpdate i _ _ _ _ _ => Some i | _ => s_last (snd ws) end /\
  s_root (snd (do_call ws c)) = s_root (snd ws).
Proof. destruct ws as [w s], c as [v name iu is|i x y|i d sm co we [dn|]]; split; reflexivity. Qed.

Lemma n_updates_mem w0 n kwargs cs :
  let ws := do_calls (new_session w0 n RNone kwargs) cs in
  get_n_updates (fst ws) (snd ws) = Ok (last_update cs).
Proof.
  intros ws. assert (s_root (snd ws) = RNone /\ s_last (snd ws) = last_update cs) as [Hr Hl].
  { unfold ws, last_update.
    assert (H : s_root (snd (new_session w0 n RNone kwargs)) = RNone /\ s_last (snd (new_session w0 n RNone kwargs)) = None).
    { unfold SessionModel.new_session.
      assert (H0 : forall ws : world V * sess, s_root (snd ws) = RNone /\ s_last (snd ws) = None ->
        let ws' := fold_left (fun ws nv => tell (fst ws) (snd ws) (snd nv) (fst nv) INone INone) kwargs ws in
        s_root (snd ws') = RNone /\ s_last (snd ws') = None).
      { induction kwargs as [|[nm v] kw IH]; intros st H; [exact H|]. cbn [fold_left]. apply IH. exact H. }
      apply H0. split; reflexivity. }
    revert H. generalize (new_session w0 n RNone kwargs) as st. generalize (@None Z) as l.
    induction cs as [|c cs IH]; intros l st [H1 H2]; [split; assumption|].
    cbn [SessionSpec.do_calls fold_left]. destruct (do_call_slast st c) as [E1 E2].
    apply (IH (match c with CUpdate i _ _ _ _ _ => Some i | _ => l end) (do_call st c)).
    rewrite E1, E2, H1, H2. split; reflexivity. }
  unfold get_n_updates. rewrite Hr. cbn. now rewrite Hl.
Qed.

(** ** asks do not disturb each other *)
Definition avail (w : world V) (s : sess) (k : key) (v : V) : Prop :=
  match cache_get (s_cache s) k with
  | Some a => nth_error (w_heap w) a = Some v
  | None => s_root s = RDir /\ load_file load (w_disk w) (path k) = Ok v
  end.

Lemma avail_returns w s name iu is v :
  avail w s (get_base_name name iu is) v <-> returns (ask w s name iu is) v.
Proof.
  unfold avail, returns, SessionModel.ask. destruct (cache_get _ _) as [a|].
  - destruct (nth_error (w_heap w) a) as [v'|] eqn:E; split.
    + intros H; injection H as ->. eexists _, _, _; split; [reflexivity|apply nth_error_snoc_eq].
    + intros (w' & s' & b & H & Hb). injection H as <- <- <-. cbn in Hb. rewrite nth_error_snoc_eq in Hb. congruence.
    + discriminate.
    + intros (w' & s' & b & H & _). discriminate.
  - destruct (s_root s) eqn:Er; cbn [truthy negb]; split; try (intros [H _]; discriminate);
      try (intros (w' & s' & b & H & _); discriminate).
    + intros [_ ->]. eexists _, _, _; split; [reflexivity|apply nth_error_snoc_eq].
    + intros (w' & s' & b & H & Hb). destruct (load_file _ _ _); [|discriminate]. injection H as <- <- <-.
      cbn in Hb. rewrite nth_error_snoc_eq in Hb. split; congruence.
Qed.

Lemma ask_avail w s nm u i k v : avail w s k v ->
  avail (fst (fst (ask w s nm u i))) (snd (fst (ask w s nm u i))) k v.
Proof.
  unfold avail, SessionModel.ask. intros H.
  destruct (cache_get (s_cache s) (get_base_name nm u i)) as [b|] eqn:Eb.
  - destruct (nth_error (w_heap w) b) as [vb|] eqn:Ev; cbn [fst snd s_cache w_heap w_disk]; [|exact H].
    destruct (cache_get (s_cache s) k) as [a|]; [|exact H]. rewrite nth_error_snoc_lt; [exact H|]. eapply nth_error_lt; eauto.
  - destruct (truthy (s_root s)) eqn:Er; cbn [negb]; [|exact H].
    destruct (load_file load (w_disk w) (path (get_base_name nm u i))) as [vl|] eqn:El; cbn [fst snd]; [|exact H].
    cbn [s_cache w_heap w_disk s_root]. rewrite cache_get_set. destruct (key_eqb k (get_base_name nm u i)) eqn:Ek.
    + apply key_eqb_eq in Ek; subst k. rewrite Eb in H. destruct H as [_ H]. rewrite El in H. injection H as ->.
      apply nth_error_snoc_eq.
    + destruct (cache_get (s_cache s) k) as [a|]; [|exact H]. rewrite nth_error_snoc_lt; [exact H|]. eapply nth_error_lt; eauto.
Qed.

Lemma ask_exists w s nm u i name iu is :
  exists_ (fst (fst (ask w s nm u i))) (snd (fst (ask w s nm u i))) name iu is = exists_ w s name iu is.
Proof.
  unfold exists_, SessionModel.ask.
  destruct (cache_get (s_cache s) (get_base_name nm u i)) as [b|] eqn:Eb.
  - destruct (nth_error (w_heap w) b); reflexivity.
  - destruct (s_root s) eqn:Er; cbn [truthy negb fst snd]; [now rewrite Er|now rewrite Er|].
    destruct (load_file load (w_disk w) (path (get_base_name nm u i))) as [vl|] eqn:El; cbn [fst snd s_cache w_disk s_root]; [|now rewrite Er].
    rewrite cache_get_set. destruct (key_eqb (get_base_name name iu is) (get_base_name nm u i)) eqn:Ek; [|reflexivity].
    apply key_eqb_eq in Ek. rewrite Ek, Eb. cbn. unfold load_file in El.
    destruct (find_file _ _ Json); [reflexivity|]. destruct (find_file _ _ Csv), (find_file _ _ Txt); reflexivity || discriminate.
Qed.

Lemma ask_n_updates w s nm u i :
  get_n_updates (fst (fst (ask w s nm u i))) (snd (fst (ask w s nm u i))) = get_n_updates w s /\
  s_n (snd (fst (ask w s nm u i))) = s_n s.
Proof.
  unfold get_n_updates, SessionModel.ask.
  destruct (cache_get _ _) as [b|]; [destruct (nth_error (w_heap w) b); split; reflexivity|].
  destruct (s_root s) eqn:E; cbn [truthy negb fst snd].
  1,2: rewrite E; split; reflexivity.
  destruct (load_file _ _ _); cbn [fst snd s_root w_disk s_n]; rewrite ?E; split; reflexivity.
Qed.

(** ** what tell makes available *)
Lemma tell_avail w s v name iu is :
  let ws := tell w s v name iu is in avail (fst ws) (snd ws) (get_base_name name iu is) v.
Proof.
  unfold avail, SessionModel.tell. cbn [fst snd s_cache w_heap]. rewrite cache_get_set, key_eqb_refl. apply nth_error_snoc_eq.
Qed.
Lemma tell_avail_other w s v name iu is k v' :
  k <> get_base_name name iu is -> avail w s k v' -> (exists a, cache_get (s_cache s) k = Some a) ->
  let ws := tell w s v name iu is in
  avail (fst ws) (snd ws) k v' /\ exists a, cache_get (s_cache (snd ws)) k = Some a.
Proof.
  intros Hk H [a Ha]. unfold avail, SessionModel.tell in *. cbn [fst snd s_cache w_heap]. rewrite cache_get_set.
  rewrite key_eqb_neq by exact Hk. rewrite Ha in *. split; [|eauto]. rewrite nth_error_snoc_lt; [exact H|]. eapply nth_error_lt; eauto.
Qed.

(** ** the calls of SessionSpec as sequences of tells *)
Definition LInv (log : list (key * V)) (ws : world V * sess) : Prop :=
  forall k v, latest k log = Some v ->
  exists a, cache_get (s_cache (snd ws)) k = Some a /\ nth_error (w_heap (fst ws)) a = Some v.
Lemma linv_avail log ws k v : LInv log ws -> latest k log = Some v ->
  avail (fst ws) (snd ws) k v.
Proof. intros H E. destruct (H _ _ E) as (a & H1 & H2). unfold avail. now rewrite H1. Qed.
Lemma linv_exists log ws name iu is v : LInv log ws -> latest (get_base_name name iu is) log = Some v ->
  exists_ (fst ws) (snd ws) name iu is = true.
Proof. intros H E. destruct (H _ _ E) as (a & H1 & H2). unfold exists_. now rewrite H1. Qed.
Lemma tell_linv log ws v name iu is : LInv log ws ->
  LInv (log ++ [(get_base_name name iu is, v)])%list (tell (fst ws) (snd ws) v name iu is).
Proof.
  intros H k v'. rewrite latest_snoc. unfold SessionModel.tell. cbn [fst snd s_cache w_heap]. rewrite cache_get_set.
  destruct (key_eqb k (get_base_name name iu is)).
  - intros E; injection E as ->. eexists; split; [reflexivity|apply nth_error_snoc_eq].
  - intros E. destruct (H _ _ E) as (a & H1 & H2). exists a. split; [exact H1|].
    rewrite nth_error_snoc_lt; [exact H2|]. eapply nth_error_lt; eauto.
Qed.
Lemma do_call_linv log ws c : LInv log ws -> LInv (log ++ call_log c)%list (do_call ws c).
Proof.
  intros H. destruct ws as [w s].
  destruct c as [v name iu is|i x y|i d sm co we dn]; unfold SessionSpec.do_call, call_log; cbn [fst snd].
  - apply (tell_linv log (w, s)). exact H.
  - unfold add_eval. pose proof (tell_linv log (w, s) y "eval_cost" (IInt i) INone H) as T1. cbn [fst snd] in T1.
    destruct (tell w s y "eval_cost" (IInt i) INone) as [w1 s1].
    pose proof (tell_linv _ _ x "eval_sample" (IInt i) INone T1) as T2. rewrite <- app_assoc in T2. exact T2.
  - unfold add_update.
    pose proof (tell_linv _ _ d "distribution" (IInt i) INone H) as T1. cbn [fst snd] in T1.
    destruct (tell w s d "distribution" (IInt i) INone) as [w1 s1].
    pose proof (tell_linv _ _ sm "samples" (IInt i) INone T1) as T2. cbn [fst snd] in T2.
    destruct (tell w1 s1 sm "samples" (IInt i) INone) as [w2 s2].
    pose proof (tell_linv _ _ co "costs" (IInt i) INone T2) as T3. cbn [fst snd] in T3.
    destruct (tell w2 s2 co "costs" (IInt i) INone) as [w3 s3].
    pose proof (tell_linv _ _ we "weights" (IInt i) INone T3) as T4. cbn [fst snd] in T4.
    destruct (tell w3 s3 we "weights" (IInt i) INone) as [w4 s4].
    destruct dn as [dn|].
    + pose proof (tell_linv _ _ dn "distribution_new" (IInt i) INone T4) as T5. cbn [fst snd] in T5.
      destruct (tell w4 s4 dn "distribution_new" (IInt i) INone) as [w5 s5].
      rewrite <- !app_assoc in T5. exact T5.
    + rewrite <- !app_assoc in T4. exact T4.
Qed.
Lemma do_calls_linv cs log ws : LInv log ws -> LInv (log ++ flat_map call_log cs)%list (do_calls ws cs).
Proof.
  revert log ws; induction cs as [|c cs IH]; intros log ws H.
  - cbn. now rewrite app_nil_r.
  - cbn [flat_map]. rewrite app_assoc. apply IH. now apply do_call_linv.
Qed.
Lemma new_session_linv w0 n r kwargs : LInv (told_new of_int n kwargs) (new_session w0 n r kwargs).
Proof.
  unfold SessionModel.new_session.
  assert (G : forall log ws, LInv log ws -> LInv (log ++ map (fun nv => (KStr (fst nv), snd nv)) kwargs)%list
    (fold_left (fun ws nv => tell (fst ws) (snd ws) (snd nv) (fst nv) INone INone) kwargs ws)).
  { clear. induction kwargs as [|[nm v] kw IH]; intros log ws H.
    - cbn. now rewrite app_nil_r.
    - cbn [map fold_left fst snd]. change (?a ++ ?x :: ?y)%list with (a ++ [x] ++ y)%list. rewrite app_assoc. apply IH.
      exact (tell_linv log ws v nm INone INone H). }
  assert (H0 : LInv [] (w0, Sess n r [] None)) by (intros k v E; discriminate).
  pose proof (tell_linv _ _ (of_int n) "n_samples_per_update" INone INone H0) as T. cbn [fst snd] in T.
  destruct (tell w0 _ (of_int n) "n_samples_per_update" INone INone) as [w1 s1].
  exact (G _ _ T).
Qed.

Lemma eval_base_name i : get_base_name "cost" (IInt i) (IStr "eval") = get_base_name "eval_cost" (IInt i) INone.
Proof. reflexivity. Qed.

Lemma add_eval_avail w s i x y :
  let ws := add_eval category w s i x y in
  avail (fst ws) (snd ws) (get_base_name "cost" (IInt i) (IStr "eval")) y /\
  avail (fst ws) (snd ws) (get_base_name "eval_sample" (IInt i) INone) x /\
  exists_ (fst ws) (snd ws) "cost" (IInt i) (IStr "eval") = true.
Proof.
  rewrite eval_base_name. unfold add_eval. cbv zeta.
  pose proof (tell_avail w s y "eval_cost" (IInt i) INone) as T. cbv zeta in T.
  destruct (tell w s y "eval_cost" (IInt i) INone) as [w1 s1] eqn:E. cbn [fst snd] in T.
  assert (C : exists a, cache_get (s_cache s1) (get_base_name "eval_cost" (IInt i) INone) = Some a).
  { injection E as <- <-. cbn [s_cache]. rewrite cache_get_set, key_eqb_refl. eauto. }
  assert (N : get_base_name "eval_cost" (IInt i) INone <> get_base_name "eval_sample" (IInt i) INone).
  { cbn. intros H. injection H as H. apply app_inv_head_s in H. discriminate. }
  destruct (tell_avail_other w1 s1 x "eval_sample" (IInt i) INone _ y N T C) as [A1 [a A2]].
  split; [exact A1|]. split; [apply tell_avail|]. unfold exists_. rewrite eval_base_name, A2. reflexivity.
Qed.
End S3.
