(** Careful programs cannot tell references from values. *)
From Verif Require Import Base BaseLemmas AliasModel AliasSpec.

Definition inside (h : heap) (r : ref) : Prop := (r_addr r < length h /\ r_off r + r_len r <= length (nth (r_addr r) h []))%nat.
Definition slice (off len : nat) (v : list R) : list R := firstn len (skipn off v).

Lemma read_length h r : inside h r -> length (read h r) = r_len r.
Proof. intros [H1 H2]. unfold read. rewrite firstn_length_le; [reflexivity|]. rewrite skipn_length. lia. Qed.
Lemma skipn_add {A} a b (l : list A) : skipn a (skipn b l) = skipn (b + a) l.
Proof. revert l; induction b as [|b IH]; intros [|x l]; cbn; trivial. now rewrite skipn_nil. Qed.
Lemma firstn_skip_firstn {A} off len n (l : list A) : (off + len <= n)%nat -> firstn len (skipn off (firstn n l)) = firstn len (skipn off l).
Proof.
  revert n l; induction off as [|off IH]; intros n l H; cbn [skipn].
  - rewrite firstn_firstn. f_equal. lia.
  - destruct n as [|n]; [lia|]. destruct l as [|x l]; [reflexivity|]. cbn. apply IH. lia.
Qed.
Lemma read_view h r off len : (off + len <= r_len r)%nat -> read h (view r off len) = slice off len (read h r).
Proof. intros H. unfold read, view, slice. cbn. rewrite firstn_skip_firstn by trivial. now rewrite skipn_add. Qed.
Lemma inside_view h r off len : inside h r -> (off + len <= r_len r)%nat -> inside h (view r off len).
Proof. intros [H1 H2] H. split; cbn; lia. Qed.
Lemma inside_app h x r : inside h r -> inside (h ++ x) r.
Proof. intros [H1 H2]. split; [rewrite app_length; lia|]. now rewrite app_nth1. Qed.
Lemma read_app h x r : inside h r -> read (h ++ x) r = read h r.
Proof. intros [H1 H2]. unfold read. now rewrite app_nth1. Qed.
Lemma set_nth_length {A} (l : list A) i v : length (set_nth l i v) = length l.
Proof. revert i; induction l as [|x l IH]; intros [|i]; cbn; trivial. now rewrite IH. Qed.
Lemma nth_set_same {A} (l : list A) i v d : (i < length l)%nat -> nth i (set_nth l i v) d = v.
Proof. revert i; induction l as [|x l IH]; intros [|i]; cbn; intros; try lia; trivial. apply IH. lia. Qed.
Lemma nth_set_other {A} (l : list A) i j v d : i <> j -> nth j (set_nth l i v) d = nth j l d.
Proof. revert i j; induction l as [|x l IH]; intros [|i] [|j] H; cbn; trivial; try lia. apply IH. lia. Qed.
Lemma inside_poke h r i v r' : inside h r' -> inside (poke h r i v) r'.
Proof.
  intros [H1 H2]. unfold poke. split; [now rewrite set_nth_length|].
  destruct (Nat.eq_dec (r_addr r) (r_addr r')) as [E|E]; [|now rewrite nth_set_other].
  rewrite E, nth_set_same by trivial. now rewrite set_nth_length.
Qed.
Lemma read_poke_other h r i v r' : r_addr r <> r_addr r' -> read (poke h r i v) r' = read h r'.
Proof. intros H. unfold read, poke. now rewrite nth_set_other. Qed.
Lemma slice_set off len (l : list R) i v : (off + len <= length l)%nat -> (i < len)%nat ->
  slice off len (set_nth l (off + i) v) = set_nth (slice off len l) i v.
Proof.
  unfold slice. revert l len i; induction off as [|off IH]; intros l len i H1 H2; cbn [skipn Nat.add].
  - revert l len H1 H2; induction i as [|i IHi]; intros [|x l] [|len] H1 H2; cbn in *; try lia; trivial. f_equal. apply IHi; lia.
  - destruct l as [|x l]; cbn in *; [lia|]. apply IH; lia.
Qed.
Lemma read_poke h r i v : inside h r -> (i < r_len r)%nat -> read (poke h r i v) r = set_nth (read h r) i v.
Proof.
  intros [H1 H2] Hi. unfold read, poke. rewrite nth_set_same by trivial.
  apply (slice_set (r_off r) (r_len r)); trivial.
Qed.

(** ** place *)
Definition good (h : heap) (p : option ref * list R) : Prop :=
  match fst p with Some r => inside h r /\ read h r = snd p | None => True end.
Lemma good_app h x p : good h p -> good (h ++ x) p.
Proof. destruct p as [[r|] v]; cbn; trivial. intros [H1 H2]. split; [now apply inside_app|]. now rewrite read_app. Qed.
Lemma place_spec l : forall h h' rs, place h l = (h', rs) -> Forall (good h) l ->
  (exists x, h' = (h ++ x)%list) /\ length rs = length l /\
  forall i, (i < length l)%nat -> let p := nth i l (None, []) in let r := nth i rs none in
    inside h' r /\ read h' r = snd p /\
    match fst p with Some r' => r = r' | None => (length h <= r_addr r)%nat end.
Proof.
  induction l as [|[[r|] v] l IH]; intros h h' rs E F; cbn [place] in E.
  - injection E as <- <-. split; [exists []; now rewrite app_nil_r|]. split; [reflexivity|]. cbn. intros; lia.
  - destruct (place h l) as [h1 rs1] eqn:E1. injection E as <- <-. inversion F as [|? ? G F']; subst.
    destruct (IH _ _ _ E1 F') as ((x & ->) & L & H). split; [now exists x|]. split; [cbn; now rewrite L|].
    intros [|i] Hi; cbn [nth]; cbv zeta.
    + cbn. destruct G as [G1 G2]. split; [now apply inside_app|]. split; [now rewrite read_app|reflexivity].
    + apply H. cbn in Hi. lia.
  - destruct (place (h ++ [v]) l) as [h1 rs1] eqn:E1. injection E as <- <-. inversion F as [|? ? G F']; subst.
    assert (F1 : Forall (good (h ++ [v])) l) by (eapply Forall_impl; [|exact F']; intros; now apply good_app).
    destruct (IH _ _ _ E1 F1) as ((x & ->) & L & H). rewrite <- app_assoc in *. split; [now exists ([v] ++ x)%list|]. split; [cbn; now rewrite L|].
    intros [|i] Hi; cbn [nth]; cbv zeta.
    + cbn [fst snd r_addr]. assert (N : nth (length h) (h ++ [v] ++ x) [] = v) by (rewrite app_nth2, Nat.sub_diag by lia; reflexivity).
      split; [split; cbn [r_addr r_off r_len]; [rewrite app_length; cbn; lia|rewrite N; lia]|]. split; [|lia].
      unfold read. cbn [r_addr r_off r_len]. rewrite N. cbn [skipn]. apply firstn_all.
    + cbn in Hi. destruct (H i ltac:(lia)) as (H1 & H2 & H3). split; [exact H1|]. split; [exact H2|].
      destruct (fst (nth i l (None, []))); trivial. rewrite app_length in H3. cbn in H3. lia.
Qed.
(** new buffers are different ones *)
Lemma place_new l : forall h h' rs, place h l = (h', rs) -> Forall (good h) l -> forall i j, (i < length l)%nat -> (j < length l)%nat -> i <> j ->
  fst (nth i l (None, [])) = None -> (forall r, In r (map fst l) -> match r with Some r => (r_addr r < length h)%nat | None => True end) ->
  r_addr (nth i rs none) <> r_addr (nth j rs none).
Proof.
  induction l as [|[[r|] v] l IH]; intros h h' rs E F i j Hi Hj Hij En Hold; cbn [place] in E; [cbn in Hi; lia|..].
  - destruct (place h l) as [h1 rs1] eqn:E1. injection E as <- <-. inversion F as [|? ? G F']; subst.
    destruct i as [|i]; [discriminate En|]. cbn [nth] in En |- *. cbn in Hi.
    destruct (place_spec _ _ _ _ E1 F') as (_ & _ & H). destruct (H i ltac:(lia)) as (_ & _ & H3). rewrite En in H3.
    destruct j as [|j].
    + pose proof (Hold (Some r) (or_introl eq_refl)) as Q. cbn in Q. cbn [nth]. lia.
    + cbn [nth]. cbn in Hj. eapply IH; try eassumption; try lia. intros r' Hr. apply Hold. now right.
  - destruct (place (h ++ [v]) l) as [h1 rs1] eqn:E1. injection E as <- <-. inversion F as [|? ? G F']; subst.
    assert (F1 : Forall (good (h ++ [v])) l) by (eapply Forall_impl; [|exact F']; intros; now apply good_app).
    destruct (place_spec _ _ _ _ E1 F1) as (_ & _ & H). cbn in Hi, Hj.
    assert (Far : forall k, (k < length l)%nat -> r_addr (nth k rs1 none) <> length h).
    { intros k Hk. destruct (H k Hk) as (_ & _ & H3). destruct (fst (nth k l (None, []))) as [r|] eqn:Er.
      - rewrite H3. assert (In (Some r) (map fst l)) as Hin.
        { rewrite <- Er. apply in_map. apply nth_In. exact Hk. }
        pose proof (Hold (Some r) (or_intror Hin)) as Q. cbn in Q. lia.
      - rewrite app_length in H3. cbn in H3. lia. }
    destruct i as [|i], j as [|j]; try lia; cbn [nth r_addr].
    + intros Q. symmetry in Q. revert Q. apply Far. lia.
    + apply Far. lia.
    + eapply IH; try eassumption; try lia. intros r' Hr. specialize (Hold r' (or_intror Hr)). destruct r'; trivial. rewrite app_length. cbn. lia.
Qed.

(** ** Classes described correctly. *)
Section Class.
Variable K : class.
Variable keeps : call K -> obj K -> list nat.
Variable shares : call K -> obj K -> list nat.
(** the attributes have the values they should have, given what they refer to *)
Definition sourced (o : option (obj K)) (args : list (list R)) (s : source) (f : nat) (v : list R) : Prop :=
  match s with
  | New => True
  | Arg k off len => (k < length args)%nat /\ (off + len <= length (nth k args []))%nat /\ v = slice off len (nth k args [])
  | Keep => match o with Some o => (f < nf K o)%nat /\ v = get K f o | None => False end
  | Same g => match o with Some o => (g < nf K o)%nat /\ v = get K g o | None => False end
  end.
Record described : Prop := {
  d_put : forall f o, (f < nf K o)%nat -> put K f (get K f o) o = o;
  d_binds : forall c o args o' rs, meth K c o args = Ok (o', rs) ->
    (forall f, (f < nf K o')%nat -> sourced (Some o) args (binds K c o args f) f (get K f o') /\
       forall k off len, binds K c o args f = Arg k off len -> In k (keeps c o)) /\
    (forall j, (j < length rs)%nat -> match nth j (rets K c o') RNew with
       | RNew => True
       | RField f off len => In j (shares c o') /\ (f < nf K o')%nat /\ (off + len <= length (get K f o'))%nat /\ nth j rs [] = slice off len (get K f o')
       end) }.
Hypothesis D : described.

(** the two programs agree *)
Record inv (w : world K) (o : obj K) (vars : list (list R)) (tied : list nat) : Prop := {
  i_obj : w_obj K w = o;
  i_refs : length (w_refs K w) = nf K o;
  i_vals : forall f, (f < nf K o)%nat -> inside (w_heap K w) (nth f (w_refs K w) none) /\ read (w_heap K w) (nth f (w_refs K w) none) = get K f o;
  i_vars : length (w_vars K w) = length vars;
  i_vvals : forall k, (k < length vars)%nat -> inside (w_heap K w) (nth k (w_vars K w) none) /\ read (w_heap K w) (nth k (w_vars K w) none) = nth k vars [];
  i_free : forall k, (k < length vars)%nat -> ~ In k tied ->
    (forall f, (f < nf K o)%nat -> r_addr (nth f (w_refs K w) none) <> r_addr (nth k (w_vars K w) none)) /\
    (forall j, (j < length vars)%nat -> j <> k -> r_addr (nth j (w_vars K w) none) <> r_addr (nth k (w_vars K w) none)) }.

Lemma load_same h o : forall refs f, (f + length refs <= nf K o)%nat ->
  (forall i, (i < length refs)%nat -> read h (nth i refs none) = get K (f + i) o) -> load K h refs f o = o.
Proof.
  induction refs as [|r refs IH]; intros f Hf H; [reflexivity|]. cbn [load]. cbn in Hf.
  pose proof (H 0%nat ltac:(cbn; lia)) as H0. cbn [nth] in H0. rewrite Nat.add_0_r in H0. rewrite H0, (d_put D) by lia.
  apply IH; [lia|]. intros i Hi. pose proof (H (S i) ltac:(cbn; lia)) as Q. cbn [nth] in Q. rewrite Q. f_equal. lia.
Qed.
Lemma var_value w o vars tied k : inv w o vars tied -> read (w_heap K w) (nth k (w_vars K w) none) = nth k vars [] /\
  r_len (nth k (w_vars K w) none) = length (nth k vars []).
Proof.
  intros I. destruct (Nat.lt_ge_cases k (length vars)) as [H|H].
  - destruct (i_vvals _ _ _ _ I k H) as [H1 H2]. split; [exact H2|]. rewrite <- H2. symmetry. now apply read_length.
  - rewrite !nth_overflow by (rewrite ?(i_vars _ _ _ _ I); lia). split; [|reflexivity]. unfold read. cbn. reflexivity.
Qed.

Lemma nth_map_seq' {A} (g : nat -> A) n i d : (i < n)%nat -> nth i (map g (seq 0 n)) d = g i.
Proof. intros H. rewrite (nth_indep _ d (g 0%nat)) by (rewrite map_length, seq_length; lia). rewrite map_nth, seq_nth by lia. reflexivity. Qed.

(** one call *)
Lemma call_inv w o vars tied c ks : inv w o vars tied -> Forall (fun k => k < length vars)%nat ks ->
  match meth K c o (map (fun k => nth k vars []) ks) with
  | Err e => do_call K w c ks = Err e
  | Ok (o', rs) => exists w', do_call K w c ks = Ok (w', rs) /\
      inv w' o' (vars ++ rs) (map (fun j => nth j ks 0%nat) (keeps c o) ++ map (fun j => (length vars + j)%nat) (shares c o') ++ tied)
  end.
Proof.
  intros I Sc. unfold do_call. rewrite (i_obj _ _ _ _ I).
  assert (EL : load K (w_heap K w) (w_refs K w) 0 o = o).
  { apply load_same; [rewrite (i_refs _ _ _ _ I); lia|]. intros i Hi. rewrite (i_refs _ _ _ _ I) in Hi. cbn [Nat.add]. now apply (i_vals _ _ _ _ I). }
  rewrite EL. cbv zeta. rewrite map_map.
  assert (EA : map (fun x => read (w_heap K w) (nth x (w_vars K w) none)) ks = map (fun k => nth k vars []) ks).
  { apply map_ext. intros k. apply (var_value _ _ _ _ k I). }
  rewrite EA. set (vals := map (fun k => nth k vars []) ks). destruct (meth K c o vals) as [[o' rs]|e] eqn:Em; [|reflexivity]. cbn [bind].
  destruct (d_binds D _ _ _ _ _ Em) as [HB HR].
  set (args := map (fun k => nth k (w_vars K w) none) ks) in *.
  set (lf := map (fun f => (locate (w_refs K w) args (binds K c o vals f) f, get K f o')) (seq 0 (nf K o'))).
  assert (Llf : length lf = nf K o') by (unfold lf; now rewrite map_length, seq_length).
  assert (Nlf : forall f, (f < nf K o')%nat -> nth f lf (None, []) = (locate (w_refs K w) args (binds K c o vals f) f, get K f o')) by (intros f Hf; unfold lf; now rewrite (nth_map_seq' (fun f => (locate (w_refs K w) args (binds K c o vals f) f, get K f o')))).
  assert (Farg : forall k, (k < length ks)%nat -> nth k args none = nth (nth k ks 0%nat) (w_vars K w) none /\ nth k (map (fun k => nth k vars []) ks) [] = nth (nth k ks 0%nat) vars [] /\ (nth k ks 0 < length vars)%nat).
  { intros k Hk. unfold args. split; [|split].
    - rewrite (nth_indep _ none (nth 0 (w_vars K w) none)) by (now rewrite map_length). now rewrite (map_nth (fun k => nth k (w_vars K w) none)).
    - rewrite (nth_indep _ [] (nth 0 vars [])) by (now rewrite map_length). now rewrite (map_nth (fun k => nth k vars [])).
    - rewrite Forall_forall in Sc. apply Sc. now apply nth_In. }
  assert (Gf : Forall (good (w_heap K w)) lf).
  { apply Forall_forall. intros p Hp. apply in_map_iff in Hp. destruct Hp as (f & <- & Hf). apply in_seq in Hf. destruct (HB f ltac:(lia)) as [Hs _].
    unfold good. cbn [fst snd]. destruct (binds K c o vals f) as [| |k off len|g]; cbn [locate]; trivial; cbn [sourced] in Hs.
    - destruct Hs as [H1 H2]. rewrite H2. now apply (i_vals _ _ _ _ I).
    - destruct Hs as (H1 & H2 & H3). unfold vals in H1, H2, H3. rewrite map_length in H1. destruct (Farg k H1) as (A1 & A2 & Q). rewrite A2 in H2, H3. rewrite A1.
      destruct (var_value _ _ _ _ (nth k ks 0%nat) I) as [V1 V2].
      destruct (i_vvals _ _ _ _ I _ Q) as [Q1 Q2]. split; [apply inside_view; [exact Q1|lia]|]. rewrite read_view by lia. now rewrite V1.
    - destruct Hs as [H1 H2]. rewrite H2. now apply (i_vals _ _ _ _ I). }
  destruct (place (w_heap K w) lf) as [h1 refs] eqn:E1.
  destruct (place_spec _ _ _ _ E1 Gf) as ((x1 & Ex1) & Lr & Pr).
  assert (HR1 : forall f, (f < nf K o')%nat -> inside h1 (nth f refs none) /\ read h1 (nth f refs none) = get K f o').
  { intros f Hf. destruct (Pr f ltac:(lia)) as (P1 & P2 & _). split; [exact P1|]. rewrite P2, (Nlf f Hf). reflexivity. }
  set (lr := map (fun j => (rlocate refs (nth j (rets K c o') RNew), nth j rs [])) (seq 0 (length rs))).
  assert (Llr : length lr = length rs) by (unfold lr; now rewrite map_length, seq_length).
  assert (Nlr : forall j, (j < length rs)%nat -> nth j lr (None, []) = (rlocate refs (nth j (rets K c o') RNew), nth j rs [])) by (intros j Hj; unfold lr; now rewrite (nth_map_seq' (fun j => (rlocate refs (nth j (rets K c o') RNew), nth j rs [])))).
  assert (Gr : Forall (good h1) lr).
  { apply Forall_forall. intros p Hp. apply in_map_iff in Hp. destruct Hp as (j & <- & Hj). apply in_seq in Hj. pose proof (HR j ltac:(lia)) as Hs.
    unfold good. cbn [fst snd]. destruct (nth j (rets K c o') RNew) as [|f off len]; cbn [rlocate]; trivial.
    destruct Hs as (_ & H1 & H2 & H3). destruct (HR1 f H1) as [Q1 Q2]. pose proof (read_length _ _ Q1) as Q3. rewrite Q2 in Q3.
    split; [apply inside_view; [exact Q1|lia]|]. rewrite read_view by lia. now rewrite Q2. }
  destruct (place h1 lr) as [h2 outs] eqn:E2.
  destruct (place_spec _ _ _ _ E2 Gr) as ((x2 & Ex2) & Lo & Po).
  eexists. split; [reflexivity|].
  assert (Old : forall r, inside (w_heap K w) r -> inside h2 r /\ read h2 r = read (w_heap K w) r).
  { intros r Hr. rewrite Ex2, Ex1. split; [now apply inside_app, inside_app|]. rewrite read_app by (now apply inside_app). now apply read_app. }
  assert (NV : forall k, (k < length vars)%nat -> nth k (w_vars K w ++ outs) none = nth k (w_vars K w) none) by (intros k Hk; apply app_nth1; rewrite (i_vars _ _ _ _ I); exact Hk).
  assert (NO : forall j, nth (length vars + j) (w_vars K w ++ outs) none = nth j outs none).
  { intros j. rewrite app_nth2 by (rewrite (i_vars _ _ _ _ I); lia). f_equal. rewrite (i_vars _ _ _ _ I). lia. }
  (* where the buffers of the attributes lie *)
  assert (AF : forall k f, (k < length vars)%nat -> ~ In k (map (fun j => nth j ks 0%nat) (keeps c o)) -> ~ In k tied -> (f < nf K o')%nat ->
     r_addr (nth f refs none) <> r_addr (nth k (w_vars K w) none)).
  { intros k f Hk N1 N2 Hf. destruct (Pr f ltac:(lia)) as (_ & _ & P3). rewrite (Nlf f Hf) in P3. cbn [fst] in P3.
    destruct (HB f Hf) as [Hs Hk']. destruct (i_free _ _ _ _ I k Hk N2) as [F1 F2].
    destruct (i_vvals _ _ _ _ I k Hk) as [[V1 _] _].
    destruct (binds K c o vals f) as [| |k' off len|g] eqn:Eb; cbn [locate] in P3; cbn [sourced] in Hs.
    - rewrite P3. apply F1. tauto.
    - lia.
    - destruct Hs as (H1 & _ & _). unfold vals in H1. rewrite map_length in H1. destruct (Farg k' H1) as (A1 & _ & Q). rewrite P3, A1. cbn [view r_addr].
      apply F2; [exact Q|]. intros Eq. apply N1. apply in_map_iff. exists k'. split; [exact Eq|]. eapply Hk'; reflexivity.
    - rewrite P3. apply F1. tauto. }
  constructor; cbn [w_heap w_obj w_refs w_vars].
  - reflexivity.
  - lia.
  - intros f Hf. destruct (HR1 f Hf) as [Q1 Q2]. rewrite Ex2. split; [now apply inside_app|]. now rewrite read_app.
  - rewrite !app_length, (i_vars _ _ _ _ I). lia.
  - intros k Hk. rewrite app_length in Hk. destruct (Nat.lt_ge_cases k (length vars)) as [H|H].
    + rewrite NV by exact H. rewrite app_nth1 by exact H. destruct (i_vvals _ _ _ _ I k H) as [Q1 Q2]. rewrite <- Q2. now apply Old.
    + replace k with (length vars + (k - length vars))%nat by lia. rewrite NO. rewrite app_nth2 by lia. replace (length vars + (k - length vars) - length vars)%nat with (k - length vars)%nat by lia.
      destruct (Po (k - length vars)%nat ltac:(lia)) as (P1 & P2 & _). split; [exact P1|]. rewrite P2, Nlr by lia. reflexivity.
  - intros k Hk Hn. rewrite !in_app_iff in Hn.
    assert (N1 : ~ In k (map (fun j => nth j ks 0%nat) (keeps c o))) by tauto.
    assert (N2 : ~ In k (map (fun j => (length vars + j)%nat) (shares c o'))) by tauto.
    assert (N3 : ~ In k tied) by tauto. clear Hn. rewrite app_length in Hk.
    destruct (Nat.lt_ge_cases k (length vars)) as [H|H].
    + rewrite NV by exact H. split; [intros f Hf; now apply AF|].
      intros j Hj Hjk. rewrite app_length in Hj. destruct (Nat.lt_ge_cases j (length vars)) as [H'|H'].
      * rewrite NV by exact H'. now apply (i_free _ _ _ _ I k H N3).
      * replace j with (length vars + (j - length vars))%nat by lia. rewrite NO.
        destruct (Po (j - length vars)%nat ltac:(lia)) as (_ & _ & P3). rewrite Nlr in P3 by lia. cbn [fst] in P3.
        pose proof (HR (j - length vars)%nat ltac:(lia)) as Hs.
        destruct (nth (j - length vars) (rets K c o') RNew) as [|f off len]; cbn [rlocate] in P3.
        -- destruct (i_vvals _ _ _ _ I k H) as [[V1 _] _]. rewrite Ex1, app_length in P3. lia.
        -- rewrite P3. cbn [view r_addr]. apply AF; trivial. tauto.
    + (* a new array of the caller *)
      set (i := (k - length vars)%nat) in *. assert (Hi : (i < length rs)%nat) by (unfold i; lia).
      replace k with (length vars + i)%nat in * by (unfold i; lia). rewrite NO.
      assert (Ei : nth i (rets K c o') RNew = RNew).
      { pose proof (HR i Hi) as Hs. destruct (nth i (rets K c o') RNew) as [|f off len]; trivial. destruct Hs as [Hs _].
        exfalso. apply N2. now apply (in_map (fun j => (length vars + j)%nat)). }
      destruct (Po i ltac:(lia)) as (_ & _ & P3). rewrite Nlr in P3 by exact Hi. rewrite Ei in P3. cbn [fst rlocate] in P3.
      split.
      * intros f Hf. destruct (HR1 f Hf) as [[Q1 _] _]. lia.
      * intros j Hj Hjk. rewrite app_length in Hj. destruct (Nat.lt_ge_cases j (length vars)) as [H'|H'].
        -- rewrite NV by exact H'. destruct (i_vvals _ _ _ _ I j H') as [[V1 _] _]. rewrite Ex1, app_length in P3. lia.
        -- replace j with (length vars + (j - length vars))%nat by lia. rewrite NO. intros Q. symmetry in Q. revert Q.
           eapply place_new; try eassumption; try lia.
           ++ rewrite Nlr by exact Hi. now rewrite Ei.
           ++ intros r Hr. apply in_map_iff in Hr. destruct Hr as (p & <- & Hp). rewrite Forall_forall in Gr. specialize (Gr p Hp). unfold good in Gr. destruct (fst p) as [r|]; trivial. now destruct Gr as [[Gr _] _].
Qed.

Lemma run_inv es : forall w o vars tied, inv w o vars tied -> careful (meth K) keeps shares o vars tied es ->
  run K w es = by_value (meth K) o vars es.
Proof.
  induction es as [|e es IH]; intros w o vars tied I C; [reflexivity|]. destruct e as [v|k i v|c ks]; cbn [run by_value careful] in *.
  - apply (IH _ _ _ tied); trivial.
    assert (App : forall r, inside (w_heap K w) r -> inside (w_heap K w ++ [v]) r /\ read (w_heap K w ++ [v]) r = read (w_heap K w) r) by (intros r Hr; split; [now apply inside_app|now apply read_app]).
    assert (Lv := i_vars _ _ _ _ I).
    assert (N : nth (length (w_heap K w)) (w_heap K w ++ [v]) [] = v) by (rewrite app_nth2, Nat.sub_diag by lia; reflexivity).
    constructor; cbn [w_heap w_obj w_refs w_vars]; try apply I.
    + intros f Hf. destruct (i_vals _ _ _ _ I f Hf) as [Q1 Q2]. rewrite <- Q2. now apply App.
    + rewrite !app_length. cbn. lia.
    + intros k Hk. rewrite app_length in Hk. cbn in Hk. destruct (Nat.lt_ge_cases k (length vars)) as [H|H].
      * rewrite !app_nth1 by lia. destruct (i_vvals _ _ _ _ I k H) as [Q1 Q2]. rewrite <- Q2. now apply App.
      * replace k with (length vars) by lia. rewrite app_nth2 by lia. rewrite app_nth2 by lia. rewrite Lv, Nat.sub_diag. cbn [nth].
        split; [split; cbn [r_addr r_off r_len]; [rewrite app_length; cbn; lia|rewrite N; lia]|].
        unfold read. cbn [r_addr r_off r_len]. rewrite N. cbn [skipn]. apply firstn_all.
    + intros k Hk Hn. rewrite app_length in Hk. cbn in Hk. destruct (Nat.lt_ge_cases k (length vars)) as [H|H].
      * rewrite (app_nth1 _ _ none) by lia. destruct (i_free _ _ _ _ I k H Hn) as [F1 F2]. split; [exact F1|].
        intros j Hj Hjk. rewrite app_length in Hj. cbn in Hj. destruct (Nat.lt_ge_cases j (length vars)) as [H'|H'].
        -- rewrite app_nth1 by lia. now apply F2.
        -- rewrite app_nth2 by lia. replace (j - length (w_vars K w))%nat with 0%nat by lia. cbn [nth r_addr].
           destruct (i_vvals _ _ _ _ I k H) as [[V1 _] _]. lia.
      * rewrite (app_nth2 _ _ none) by lia. replace (k - length (w_vars K w))%nat with 0%nat by lia. cbn [nth r_addr]. split.
        -- intros f Hf. destruct (i_vals _ _ _ _ I f Hf) as [[V1 _] _]. lia.
        -- intros j Hj Hjk. rewrite app_length in Hj. cbn in Hj. rewrite app_nth1 by lia.
           destruct (i_vvals _ _ _ _ I j ltac:(lia)) as [[V1 _] _]. lia.
  - destruct C as [Hn C]. destruct (var_value _ _ _ _ k I) as [V1 V2]. rewrite V2.
    destruct (Nat.ltb_spec i (length (nth k vars []))) as [Hi|Hi]; [|reflexivity].
    apply (IH _ _ _ tied); trivial.
    assert (Hk : (k < length vars)%nat).
    { destruct (Nat.lt_ge_cases k (length vars)) as [H|H]; [exact H|]. rewrite nth_overflow in Hi by exact H. cbn in Hi. lia. }
    destruct (i_free _ _ _ _ I k Hk Hn) as [F1 F2].
    constructor; cbn [w_heap w_obj w_refs w_vars]; try apply I.
    + intros f Hf. destruct (i_vals _ _ _ _ I f Hf) as [Q1 Q2]. split; [now apply inside_poke|]. rewrite read_poke_other; [exact Q2|]. apply not_eq_sym, F1, Hf.
    + rewrite set_nth_length. apply I.
    + intros j Hj. rewrite set_nth_length in Hj. destruct (i_vvals _ _ _ _ I j Hj) as [Q1 Q2]. split; [now apply inside_poke|].
      destruct (Nat.eq_dec j k) as [->|E].
      * rewrite nth_set_same by exact Hk. rewrite read_poke; [now rewrite V1|exact Q1|]. rewrite V2. exact Hi.
      * rewrite nth_set_other by congruence. rewrite read_poke_other; [exact Q2|]. apply not_eq_sym. now apply F2.
    + intros j Hj Hnj. rewrite set_nth_length in Hj |- *. now apply (i_free _ _ _ _ I).
  - destruct C as [Sc C]. pose proof (call_inv w o vars tied c ks I Sc) as Q.
    destruct (meth K c o (map (fun k => nth k vars []) ks)) as [[o' rs]|e]; [|now rewrite Q].
    destruct Q as (w' & -> & I'). f_equal. eapply IH; eassumption.
Qed.

(** ** Theorem: a constructor which is described correctly *)
Theorem run_careful o args b tied0 es :
  (forall f, (f < nf K o)%nat -> sourced None args (b f) f (get K f o) /\ forall k off len, b f = Arg k off len -> In k tied0) ->
  careful (meth K) keeps shares o args tied0 es -> run K (boot K o args b) es = by_value (meth K) o args es.
Proof.
  intros HB C. eapply run_inv; [|exact C]. unfold boot.
  set (vars := map (fun k => Ref k 0 (length (nth k args []))) (seq 0 (length args))).
  assert (Lv : length vars = length args) by (unfold vars; now rewrite map_length, seq_length).
  assert (Nv : forall k, (k < length args)%nat -> nth k vars none = Ref k 0 (length (nth k args []))) by (intros k Hk; unfold vars; now rewrite (nth_map_seq' (fun k => Ref k 0 (length (nth k args []))))).
  assert (Iv : forall k, (k < length args)%nat -> inside args (nth k vars none) /\ read args (nth k vars none) = nth k args []).
  { intros k Hk. rewrite (Nv k Hk). split; [split; cbn; lia|]. unfold read. cbn. apply firstn_all. }
  set (l := map (fun f => (locate [] vars (b f) f, get K f o)) (seq 0 (nf K o))).
  assert (Ll : length l = nf K o) by (unfold l; now rewrite map_length, seq_length).
  assert (Nl : forall f, (f < nf K o)%nat -> nth f l (None, []) = (locate [] vars (b f) f, get K f o)) by (intros f Hf; unfold l; now rewrite (nth_map_seq' (fun f => (locate [] vars (b f) f, get K f o)))).
  assert (G : Forall (good args) l).
  { apply Forall_forall. intros p Hp. apply in_map_iff in Hp. destruct Hp as (f & <- & Hf). apply in_seq in Hf. destruct (HB f ltac:(lia)) as [Hs _].
    unfold good. cbn [fst snd]. destruct (b f) as [| |k off len|g]; cbn [locate]; cbn [sourced] in Hs; try contradiction; trivial.
    destruct Hs as (H1 & H2 & H3). destruct (Iv k H1) as [Q1 Q2]. pose proof (Nv k H1) as N.
    split; [apply inside_view; [exact Q1|rewrite N; cbn; lia]|]. rewrite read_view by (rewrite N; cbn; lia). now rewrite Q2. }
  destruct (place args l) as [h refs] eqn:E. destruct (place_spec _ _ _ _ E G) as ((x & Ex) & Lr & Pr).
  constructor; cbn [w_heap w_obj w_refs w_vars].
  - reflexivity.
  - lia.
  - intros f Hf. destruct (Pr f ltac:(lia)) as (P1 & P2 & _). split; [exact P1|]. rewrite P2, (Nl f Hf). reflexivity.
  - exact Lv.
  - intros k Hk. destruct (Iv k Hk) as [Q1 Q2]. rewrite Ex. split; [now apply inside_app|]. now rewrite read_app.
  - intros k Hk Hn. split.
    + intros f Hf. destruct (Pr f ltac:(lia)) as (_ & _ & P3). rewrite (Nl f Hf) in P3. cbn [fst] in P3. destruct (HB f Hf) as [Hs Hb].
      rewrite (Nv k Hk). cbn [r_addr].
      destruct (b f) as [| |k' off len|g]; cbn [locate] in P3; cbn [sourced] in Hs; try contradiction; [lia|].
      rewrite P3. destruct Hs as [H1 _]. rewrite (Nv k' H1). cbn. intros ->. apply Hn. eapply Hb. reflexivity.
    + intros j Hj Hjk. rewrite (Nv k Hk), (Nv j Hj). cbn. exact Hjk.
Qed.
End Class.
