(** PROPERTY C44: the server's pool of connections. *)
From Verif Require Import Bytes ByteHelpers Thin Helpers ReqGrammar TextSpec Conn ConnSpec ConnInv ConnStep ConnIn ConnLog PropsConn Server.
Open Scope Z_scope.

Definition is_init_action (a : action) : bool := match a with ACall (OpInit _) => true | _ => false end.
Definition is_call (a : action) : bool := match a with ACall _ => true | _ => false end.
Definition spolite (s : srv) (a : saction) : Prop :=
  match a with
  | SAccept _ _ => quiet s
  | SConn i a => is_init_action a = false /\
      (forall c stk, nth_error (objs s) i = Some (Run c stk) -> polite c stk a) /\
      (is_call a = true -> in_use s i = true \/ running s i) /\
      (closes s i a -> quiet s)
  end.
Fixpoint spolite_run (g : scfg) (l : list saction) : Prop :=
  match l with
  | [] => True
  | a :: t => (match g with SRun s => spolite s a | SFault _ => True end) /\ spolite_run (sstep g a) t
  end.

(** ** Lists *)
Lemma nth_set_same i g l : (i < length l)%nat -> nth_error (set_nth i g l) i = Some g.
Proof. revert i. induction l as [|x l IH]; intros [|i]; cbn; intros H; try lia; auto. apply IH. lia. Qed.
Lemma nth_set_other i j g l : i <> j -> nth_error (set_nth i g l) j = nth_error l j.
Proof. revert i j. induction l as [|x l IH]; intros [|i] [|j]; cbn; intros H; auto; try congruence. Qed.
Lemma len_set i g l : length (set_nth i g l) = length l.
Proof. revert i. induction l as [|x l IH]; intros [|i]; cbn; auto. Qed.
Lemma trim_spec p : p = snd (trim p) ++ fst (trim p) /\ (length (fst (trim p)) < MaximumReserveCount)%nat.
Proof.
  induction p as [|i t [E L]]; cbn [trim]; [cbn; split; auto; unfold MaximumReserveCount; lia|].
  destruct (Nat.leb_spec MaximumReserveCount (length (i :: t))); [|cbn; split; auto].
  destruct (trim t) as [k d]. cbn [fst snd app] in *. rewrite <- E. auto.
Qed.

(** ** Connections: closed is emitted once in a life *)
Lemma open_tail l rs t rest : Exchanges rs l -> Tail rest t -> ~ In OClosed (l ++ t).
Proof.
  intros X T I. apply in_app_iff in I as [I|I].
  - revert I. apply no_closed_signals. rewrite (exchanges_signals _ _ X), in_concat. intros (y & I1 & I2). apply in_map_iff in I1 as (r & <- & _). cbn in I2. intuition discriminate.
  - revert I. apply no_closed_signals. destruct T as [|h n H1 H2 H3 H4|m x H1 H2|m x a len ps evs H1 H2 H3|m x e' H1 H2 H3|s H].
    + auto. + cbn; auto.
    + rewrite signals_app, signals_interim. cbn. intuition discriminate.
    + rewrite signals_app, signals_interim. pose proof (answering_signals _ _ _ _ _ H3) as A. cbn. unfold signals in A. rewrite A. cbn. intuition discriminate.
    + rewrite (exchange_signals _ _ _ H3). cbn. intuition discriminate.
    + cbn; auto.
Qed.
Lemma Body_open c : Body c -> ~ In OClosed (log c).
Proof. intros (ms & rest & l & t & C & A & E & L & T). rewrite L. eapply open_tail; eauto. Qed.
Lemma closed_state c stk : reached c stk -> In OClosed (log c) -> st c = Closed.
Proof.
  intros R I. apply reached_inv in R. destruct R as [E _ _ _ _ L _|H _|ms m more l s t H _ _ _|ms s t H _ _ _ _|H _|H _].
  - rewrite L in I. destruct I.
  - exfalso. eapply Body_open; eauto using Live_Body.
  - exfalso. eapply Body_open; eauto using C1_Body.
  - exfalso. destruct H. rewrite <- (app_nil_r (log c)) in I. eapply (open_tail _ _ []); [eauto|apply (T_idle [])|eauto].
  - destruct H as [[_ B]|[H _]]; auto. exfalso. eapply Body_open; eauto using Last_Body.
  - apply H.
Qed.
(** a connection in use is not inside its closed signal *)
Lemma open_in c stk : reached c stk -> ~ In OClosed (log c) -> in_ok c = true -> ~ In KClosed stk.
Proof.
  intros R N Ok. apply reached_inv in R.
  assert (BK : forall t, Base t -> ~ In KClosed t) by (intros t B I; unfold Base in B; rewrite Forall_forall in B; exact (B _ I)).
  assert (WK : forall t, writes t -> ~ In KClosed t) by (intros t B I; unfold writes in B; rewrite Forall_forall in B; specialize (B _ I); discriminate).
  destruct R as [E -> _ _ _ L _|H B|ms m more l s t H -> Ws B|ms s t H -> _ Ws B|H F|(_ & _ & _ & H) _]; auto.
  - rewrite in_app_iff. cbn. intros [I|[I|[I|I]]]; try discriminate; [now apply (WK s)|now apply (BK t)].
  - rewrite in_app_iff. cbn. intros [I|[I|I]]; try discriminate; [now apply (WK s)|now apply (BK t)].
  - intros I. unfold Fin in F. rewrite Forall_forall in F. exact (F _ I).
Qed.
Lemma count_in c : (0 < closed_count c)%nat <-> In OClosed (log c).
Proof.
  unfold closed_count. induction (log c) as [|x l IH]; cbn; [split; [lia|tauto]|]. destruct x; cbn; rewrite ?IH; intuition; try discriminate; lia.
Qed.
Lemma count_app c l : log c = l -> closed_count c = length (filter is_closed l).
Proof. now intros <-. Qed.

Lemma init_resets a : is_init_action a = false -> resets a = false.
Proof. destruct a as [[]| | | |]; cbn; auto; discriminate. Qed.
(** a closed connection logs nothing more *)
Lemma closed_stays c stk a c' stk' : reached c stk -> polite c stk a -> is_init_action a = false -> step (Run c stk) a = Run c' stk' ->
  In OClosed (log c) -> log c' = log c.
Proof.
  intros R P N E I. destruct (step_log (Run c stk) a (init_resets _ N)) as (e & L). rewrite E in L. cbn [gconn] in L.
  assert (R' : reached c' stk') by (eapply reached_step; eauto).
  apply in_split in I as (p & q & I). pose proof (C18_nothing_after_closed c' stk' p (q ++ e) R') as Q. rewrite L, I, <- app_assoc in Q. specialize (Q eq_refl).
  apply app_eq_nil in Q as [-> ->]. now rewrite app_nil_r in L.
Qed.
Lemma count_grows c stk a c' stk' : reached c stk -> polite c stk a -> is_init_action a = false -> step (Run c stk) a = Run c' stk' ->
  (closed_count c < closed_count c')%nat <-> ~ In OClosed (log c) /\ In OClosed (log c').
Proof.
  intros R P N E. pose proof (closed_stays _ _ _ _ _ R P N E) as S. rewrite <- !count_in in *. split.
  - intros H. split; [|lia]. intros Q. specialize (S Q). unfold closed_count in H. rewrite S in H. lia.
  - intros [H1 H2]. lia.
Qed.

(** ** History *)
Lemma busy_snoc h i o : busy (rev (h ++ [o])) i = busy (o :: rev h) i.
Proof. now rewrite rev_app_distr. Qed.
Lemma in_use_handed s i j p o g : in_use (mkSrv p o g (hist s ++ [SHanded j])) i = if (i =? j)%nat then true else in_use s i.
Proof. unfold in_use. cbn [hist]. now rewrite busy_snoc. Qed.
Lemma busy_deleted h d i : busy (rev (h ++ map SDeleted d)) i = busy (rev h) i.
Proof.
  revert h. induction d as [|x d IH]; intros h; cbn [map]; [now rewrite app_nil_r|]. 
  replace (h ++ SDeleted x :: map SDeleted d) with ((h ++ [SDeleted x]) ++ map SDeleted d) by now rewrite <- app_assoc.
  rewrite IH, busy_snoc. reflexivity.
Qed.
Lemma in_map_deleted i d : In (SDeleted i) (map SDeleted d) <-> In i d.
Proof. rewrite in_map_iff. split; [intros (x & E & H); injection E; intros; now subst|eauto]. Qed.

Lemma start_reached' : reached conn0 [].
Proof. exists []. split; [exact I|reflexivity]. Qed.
(** an object is idle: unused, or closed *)
Definition idle_obj (c : conn) (stk : list frame) : Prop := (exists k, c = set_kcap k conn0) /\ stk = [] \/ In OClosed (log c).

Record SI (s : srv) : Prop := mkSI {
  si_nodup : NoDup (pool s);
  si_len : (length (pool s) <= MaximumReserveCount)%nat;
  si_obj : forall i, (i < length (objs s))%nat -> exists c stk, nth_error (objs s) i = Some (Run c stk) /\ reached c stk /\
     (in_use s i = false /\ idle_obj c stk \/ in_use s i = true /\ ~ In OClosed (log c) /\ in_ok c = true);
  si_range : forall i, In i (pool s) \/ In i (gone s) \/ in_use s i = true -> (i < length (objs s))%nat;
  si_where : forall i, (i < length (objs s))%nat -> (In i (pool s) <-> ~ In i (gone s) /\ in_use s i = false);
  si_gone : forall i, In i (gone s) -> in_use s i = false /\ ~ running s i;
  si_deleted : forall i, In i (gone s) <-> deleted s i;
  si_hist : forall h1 i h2, hist s = h1 ++ SHanded i :: h2 -> busy (rev h1) i = false /\ ~ In (SDeleted i) h1 }.

Lemma create_SI s : SI s -> forall t, t = mkSrv (length (objs s) :: pool s) (objs s ++ [start]) (gone s) (hist s) -> (length (pool s) < MaximumReserveCount)%nat -> SI t.
Proof.
  intros [H1 H2 H3 H4 H5 H6 H7 H8] t -> L. assert (N : ~ In (length (objs s)) (pool s)) by (intros I; specialize (H4 _ (or_introl I)); lia).
  assert (U : in_use s (length (objs s)) = false) by (destruct (in_use s (length (objs s))) eqn:E; auto; specialize (H4 _ (or_intror (or_intror E))); lia).
  constructor; cbn [pool objs gone hist]; auto.
  - constructor; auto.
  - intros i Hi. rewrite app_length in Hi. cbn in Hi. destruct (Nat.eq_dec i (length (objs s))) as [->|Ne].
    + exists conn0, []. rewrite nth_error_app2, Nat.sub_diag by lia. split; auto. split; [apply start_reached'|]. left. split; auto. left. split; auto. now exists 0.
    + rewrite nth_error_app1 by lia. apply H3. lia.
  - intros i Hi. rewrite app_length. cbn. assert (i = length (objs s) \/ (i < length (objs s))%nat) as [->|]; [|lia|lia].
    destruct Hi as [[Hi|Hi]|Hi]; [auto|right; apply H4; auto|right; apply H4; auto].
  - intros i Hi. rewrite app_length in Hi. cbn in Hi. destruct (Nat.eq_dec i (length (objs s))) as [->|Ne].
    + split; [intros _|left; auto]. split; [|exact U]. intros G. specialize (H4 _ (or_intror (or_introl G))). lia.
    + rewrite <- (H5 i) by lia. cbn. intuition congruence.
  - intros i Hi. destruct (H6 i Hi) as [A B]. split; [exact A|]. intros (c & f & t & E). apply B. exists c, f, t. cbn [objs] in E.
    rewrite nth_error_app1 in E by (apply H4; auto). exact E.
Qed.
Lemma empty_SI : SI (mkSrv [] [] [] []).
Proof.
  constructor; cbn; auto; try (intros; lia); try tauto.
  - constructor.
  - intros h1 i h2 E. destruct h1; discriminate.
Qed.
Lemma fill_SI n : forall s, SI s -> (length (pool s) + n <= MaximumReserveCount)%nat -> SI (fill n s).
Proof.
  induction n as [|n IH]; intros s H L; auto. cbn [fill create]. apply IH; [eapply create_SI; eauto; cbn; lia|]. cbn. lia.
Qed.
Lemma start_SI : SI srv0.
Proof. apply fill_SI; [apply empty_SI|cbn; lia]. Qed.

Lemma in_use_same s s' : hist s' = hist s -> forall i, in_use s' i = in_use s i.
Proof. intros E i. unfold in_use. now rewrite E. Qed.

(** handing out connection [i], which is not serving and not deleted *)
Lemma hand_SI s i c' : SI s -> forall p, (pool s = i :: p) -> forall t,
  t = mkSrv p (set_nth i (Run c' []) (objs s)) (gone s) (hist s ++ [SHanded i]) -> reached c' [] -> log c' = [] -> in_ok c' = true -> SI t.
Proof.
  intros [H1 H2 H3 H4 H5 H6 H7 H8] p Ep t -> R L Ok.
  assert (Hi : (i < length (objs s))%nat) by (apply H4; left; rewrite Ep; now left).
  assert (Up : forall k, in_use (mkSrv p (set_nth i (Run c' []) (objs s)) (gone s) (hist s ++ [SHanded i])) k = if (k =? i)%nat then true else in_use s k) by (intros; apply in_use_handed).
  rewrite Ep in H1. apply NoDup_cons_iff in H1 as [N1 N2].
  assert (Q : ~ In i (gone s) /\ in_use s i = false) by (apply H5; auto; rewrite Ep; now left). destruct Q as [Qg Qu].
  constructor; cbn [pool objs gone hist]; auto.
  - rewrite Ep in H2. cbn in H2. lia.
  - intros k Hk. rewrite len_set in Hk. rewrite Up. destruct (Nat.eqb_spec k i) as [->|Ne].
    + exists c', []. rewrite nth_set_same by auto. split; auto. split; auto. right. split; auto. rewrite L. split; auto.
    + rewrite nth_set_other by auto. apply H3. auto.
  - intros k Hk. rewrite len_set. rewrite Up in Hk. destruct (Nat.eqb_spec k i) as [Eq|Ne]; [now subst k|]. apply H4. rewrite Ep. cbn. tauto.
  - intros k Hk. rewrite len_set in Hk. rewrite Up. destruct (Nat.eqb_spec k i) as [->|Ne].
    + split; [intros; contradiction|intros [_ ?]; discriminate].
    + rewrite <- H5 by auto. rewrite Ep. cbn. intuition congruence.
  - intros k Hk. rewrite Up. destruct (Nat.eqb_spec k i) as [->|Ne]; [contradiction|]. destruct (H6 k Hk) as [A B]. split; auto.
    intros (c & f & t & E). apply B. exists c, f, t. cbn [objs] in E. now rewrite nth_set_other in E by auto.
  - intros k. rewrite H7. unfold deleted. cbn [hist]. rewrite in_app_iff. cbn. intuition discriminate.
  - intros h1 k h2 E. destruct (rev h2) as [|x h2'] eqn:Er.
    + assert (h2 = []) as -> by (apply (f_equal (@rev _)) in Er; now rewrite rev_involutive in Er). apply app_inj_tail in E as [E1 E2].
      injection E2 as <-. rewrite <- E1. split; [exact Qu|]. intros D. apply Qg, H7, D.
    + apply (f_equal (@rev _)) in Er. rewrite rev_involutive in Er. cbn in Er. rewrite Er in E. 
      replace (h1 ++ SHanded k :: rev h2' ++ [x]) with ((h1 ++ SHanded k :: rev h2') ++ [x]) in E by now rewrite <- app_assoc. apply app_inj_tail in E as [E _]. eapply H8; eauto.
Qed.

Lemma init_rest c1 : log c1 = [] ->
  match (if isnull c1 && (cap c1 <=? MaxHead) then UB SharedNullWrite c1 else
  let c := set_ps (mkTS tp_zero [] (cl_index (ps c1))) c1 in
  let c := if cap c <=? MaxHead then set_buf [] c
           else set_freed true (set_isnull true (set_cap 0 (set_buf [] c))) in
  let c := toReceivingHeaders c in
  if in_ok c then Run c [] else UB NullInput c) with Run c' _ => log c' = [] /\ in_ok c' = true | UB _ _ => True end.
Proof.
  intros H. destruct (_ && _); auto. cbn zeta.
  assert (T : forall c, log (toReceivingHeaders c) = log c) by (intros c; unfold toReceivingHeaders; destruct (cst_eqb _ _); reflexivity).
  destruct (cap _ <=? _); destruct (in_ok (toReceivingHeaders _)) eqn:O; auto; rewrite T; auto.
Qed.
Lemma init_log so data c : match initialize (NewDevice true true so data) c with Run c' _ => log c' = [] /\ in_ok c' = true | UB _ _ => True end.
Proof.
  exact (init_rest (set_arrived data (set_log [] (set_drain_conn false (set_kcap 0 (set_pending 0 (set_sock so
                 (set_avail data (set_out_ok true (set_in_ok true c))))))))) eq_refl).
Qed.
Lemma init_step d c : step (Run c []) (ACall (OpInit d)) = match initialize d c with Run c' _ => Run c' [] | UB r c' => UB r c' end.
Proof. reflexivity. Qed.
Lemma init_polite c so data : (exists k, c = set_kcap k conn0) \/ st c = Closed -> polite c [] (ACall (OpInit (NewDevice true true so data))).
Proof. intros D. split; auto. split; [|eauto]. destruct D as [[k E]|D]; [left|right; auto]. rewrite E. reflexivity. Qed.
Lemma reach_init c so data c' stk' : reached c [] -> (exists k, c = set_kcap k conn0) \/ In OClosed (log c) -> step (Run c []) (ACall (OpInit (NewDevice true true so data))) = Run c' stk' ->
  reached c' [] /\ stk' = [] /\ log c' = [] /\ in_ok c' = true.
Proof.
  intros R D E. assert (P : polite c [] (ACall (OpInit (NewDevice true true so data)))).
  { apply init_polite. destruct D as [D|D]; [now left|right; eapply closed_state; eauto]. }
  pose proof (reached_step c [] _ c' stk' R P E) as R'.
  rewrite init_step in E. pose proof (init_log so data c) as Q. clear P R D. revert E Q. generalize (initialize (NewDevice true true so data) c). intros g E Q.
  destruct g as [c1 s1|r c1]; [|discriminate]. injection E as E1 E2. subst. auto.
Qed.

Lemma accept_SI s so data : SI s -> quiet s -> match sstep (SRun s) (SAccept so data) with SRun s' => SI s' | SFault f => exists r, f = FConnection r end.
Proof.
  intros H Q. cbn [sstep]. unfold takeConnection. destruct (pool s) as [|i p] eqn:Ep.
  - cbn [create]. cbn [objs]. rewrite nth_error_app2, Nat.sub_diag by lia. cbn [nth_error].
    assert (H' : SI (mkSrv [length (objs s)] (objs s ++ [start]) (gone s) (hist s))) by (eapply create_SI; eauto; rewrite Ep; cbn; [reflexivity|unfold MaximumReserveCount; lia]).
    assert (G : ingone (length (objs s)) (mkSrv (pool s) (objs s ++ [start]) (gone s) (hist s)) = false).
    { unfold ingone. cbn [gone]. apply Bool.not_true_is_false. intros G. apply existsb_exists in G as (x & G1 & G2). apply Nat.eqb_eq in G2. subst x.
      pose proof (si_range _ H _ (or_intror (or_introl G1))). lia. }
    rewrite G. unfold start at 1.
    destruct (step (Run conn0 []) _) as [c' stk'|r c'] eqn:E; [|eauto].
    destruct (reach_init _ _ _ _ _ start_reached' (or_introl (ex_intro _ 0 eq_refl)) E) as (R & -> & L & Ok).
    refine (hand_SI _ _ c' H' [] eq_refl _ _ R L Ok). unfold set_obj. cbn [pool objs gone hist]. rewrite Ep. reflexivity.
  - assert (Hi : (i < length (objs s))%nat) by (apply (si_range _ H); left; rewrite Ep; now left).
    destruct (si_obj _ H i Hi) as (c & stk & E & R & X). cbn [objs]. rewrite E.
    assert (W : ~ In i (gone s) /\ in_use s i = false) by (apply (si_where _ H); auto; rewrite Ep; now left).
    assert (G : ingone i (mkSrv p (objs s) (gone s) (hist s)) = false).
    { unfold ingone. cbn [gone]. apply Bool.not_true_is_false. intros G. apply existsb_exists in G as (x & G1 & G2). apply Nat.eqb_eq in G2. subst x. tauto. }
    rewrite G.
    assert (S : stk = []). { destruct stk as [|f t]; auto. exfalso. apply (Q i); [rewrite Ep; now left|]. exists c, f, t. exact E. }
    subst stk. destruct X as [[_ X]|[X _]]; [|rewrite (proj2 W) in X; discriminate].
    destruct (step (Run c []) _) as [c' stk'|r c'] eqn:Es; [|eauto].
    destruct (reach_init _ _ _ _ _ R ltac:(destruct X as [[X _]|X]; auto) Es) as (R' & -> & L & Ok).
    refine (hand_SI _ _ c' H p Ep _ _ R' L Ok). reflexivity.
Qed.

(** a step of connection [i] that does not close it *)
Lemma move_SI s i c stk c' stk' : SI s -> nth_error (objs s) i = Some (Run c stk) -> ~ In i (gone s) -> reached c' stk' ->
  (in_use s i = false -> idle_obj c' stk') -> (in_use s i = true -> ~ In OClosed (log c') /\ in_ok c' = true) -> SI (set_obj i (Run c' stk') s).
Proof.
  intros [H1 H2 H3 H4 H5 H6 H7 H8] E G R I1 I2. assert (Hi : (i < length (objs s))%nat) by (apply nth_error_Some; congruence).
  constructor; unfold set_obj; cbn [pool objs gone hist]; auto.
  - intros k Hk. rewrite len_set in Hk. destruct (Nat.eq_dec k i) as [->|Ne].
    + exists c', stk'. rewrite nth_set_same by auto. split; auto. split; auto. change (in_use _ i) with (in_use s i). destruct (in_use s i); [right|left]; auto.
    + rewrite nth_set_other by auto. apply H3; auto.
  - intros k Hk. rewrite len_set. now apply H4.
  - intros k Hk. rewrite len_set in Hk. now apply H5.
  - intros k Hk. destruct (H6 k Hk) as [A B]. split; auto. intros (c1 & f & t & E1). apply B. exists c1, f, t. cbn [objs] in E1.
    rewrite nth_set_other in E1; auto. intros ->. contradiction.
Qed.

Lemma ingone_In i s : ingone i s = true <-> In i (gone s).
Proof. unfold ingone. rewrite existsb_exists. split; [intros (x & H & E); apply Nat.eqb_eq in E; now subst|intros H; exists i; now rewrite Nat.eqb_refl]. Qed.

(** and one that does *)
Lemma back_SI s i c' stk' : SI s -> in_use s i = true -> ~ In i (gone s) -> quiet s -> reached c' stk' -> In OClosed (log c') ->
  SI (connection_closed i (set_obj i (Run c' stk') s)).
Proof.
  intros [H1 H2 H3 H4 H5 H6 H7 H8] U G Q R I. assert (Hi : (i < length (objs s))%nat) by auto.
  assert (Np : ~ In i (pool s)) by (intros X; apply H5 in X; auto; destruct X; congruence).
  unfold connection_closed, putConnection, set_obj. cbn [pool objs gone hist].
  destruct (trim_spec (pool s)) as [T1 T2]. destruct (trim (pool s)) as [k d]. cbn [fst snd] in *.
  assert (Bk : forall p o g x, in_use (mkSrv p o g ((hist s ++ [SBack i]) ++ map SDeleted d)) x = if (x =? i)%nat then false else in_use s x).
  { intros p o g x. unfold in_use. cbn [hist]. rewrite busy_deleted, busy_snoc. reflexivity. }
  rewrite T1 in H1. assert (ND : NoDup k /\ (forall x, In x d -> ~ In x k)).
  { clear -H1. induction d as [|x d IH]; cbn in *; [auto|]. apply NoDup_cons_iff in H1 as [A B]. destruct (IH B) as [C D]. split; auto.
    intros y [->|Y]; auto. rewrite in_app_iff in A. tauto. }
  destruct ND as [ND1 ND2].
  assert (Pk : forall x, In x (pool s) <-> In x d \/ In x k) by (intros x; rewrite T1, in_app_iff; tauto).
  constructor; cbn [pool objs gone hist].
  - constructor; auto. intros X. apply Np, Pk; auto.
  - cbn. lia.
  - intros x Hx. rewrite len_set in Hx. rewrite Bk. destruct (Nat.eqb_spec x i) as [->|Ne].
    + exists c', stk'. rewrite nth_set_same by auto. split; auto. split; auto. left. split; auto. now right.
    + rewrite nth_set_other by auto. apply H3; auto.
  - intros x Hx. rewrite len_set. rewrite Bk in Hx. destruct (Nat.eqb_spec x i) as [Eq|Ne]; [now subst x|]. apply H4. rewrite Pk. cbn in Hx. rewrite in_app_iff in Hx.
    destruct Hx as [[Hx|Hx]|[[Hx|Hx]|Hx]]; auto.
  - intros x Hx. rewrite len_set in Hx. rewrite Bk, in_app_iff. destruct (Nat.eqb_spec x i) as [->|Ne].
    + split; [intros _|intros _; now left]. split; auto. intros [X|X]; [|contradiction]. apply Np, Pk; auto.
    + pose proof (H5 x Hx) as W. rewrite Pk in W. split.
      * intros [X|X]; [congruence|]. destruct W as [W _]. destruct (W (or_intror X)) as [W1 W2]. split; auto. intros [Y|Y]; auto. eapply ND2; eauto.
      * intros [X Y]. right. destruct W as [_ W]. destruct W; auto. tauto.
  - intros x Hx. rewrite Bk. apply in_app_iff in Hx as [Hx|Hx].
    + assert (X : In x (pool s)) by (apply Pk; auto). assert (x <> i) by (intros ->; contradiction). destruct (Nat.eqb_spec x i); [contradiction|].
      split; [apply H5; auto|]. intros (c1 & f & t & E1). cbn [objs] in E1. rewrite nth_set_other in E1 by auto. apply (Q x X). now exists c1, f, t.
    + destruct (Nat.eqb_spec x i) as [->|Ne]; [contradiction|]. destruct (H6 x Hx) as [A B]. split; auto.
      intros (c1 & f & t & E1). apply B. exists c1, f, t. cbn [objs] in E1. now rewrite nth_set_other in E1 by auto.
  - intros x. unfold deleted. cbn [hist]. rewrite !in_app_iff, H7, in_map_deleted. unfold deleted. cbn. intuition discriminate.
  - intros h1 x h2 E. rewrite <- app_assoc in E.
    assert (X : exists h2', hist s = h1 ++ SHanded x :: h2').
    { clear -E. revert E. generalize (hist s) as h. intros h. revert h1. induction h as [|y h IH]; intros h1 E.
      - exfalso. cbn in E. destruct h1 as [|z h1]; [discriminate|]. injection E as _ E. revert h1 E. induction d as [|y d IH]; intros h1 E; [destruct h1; discriminate|].
        destruct h1; [discriminate|]. injection E as _ E. eauto.
      - destruct h1 as [|z h1]; cbn in E; injection E as -> E; [now exists h|]. destruct (IH h1 E) as (h2' & ->). now exists h2'. }
    destruct X as (h2' & X). eapply H8; eauto.
Qed.

(** an unused connection is not called, and nothing happens to it *)
Lemma unused_step k a : (is_call a = true -> False) -> exists k', step (Run (set_kcap k conn0) []) a = Run (set_kcap k' conn0) [].
Proof.
  intros H. destruct a as [o| |b|n|n]; [exfalso; auto|exists k; reflexivity|exists k; reflexivity|exists (Z.max 0 n); reflexivity|].
  exists k. cbn [step]. change (pending (set_kcap k conn0)) with 0. replace (Z.max 0 (Z.min n 0)) with 0 by lia. reflexivity.
Qed.

Lemma sconn_SI s i a : SI s -> spolite s (SConn i a) -> match sstep (SRun s) (SConn i a) with SRun s' => SI s' | SFault f => exists r, f = FConnection r end.
Proof.
  intros H (N & P & C & Q). cbn [sstep]. destruct (nth_error (objs s) i) as [g|] eqn:E; [|auto].
  assert (Hi : (i < length (objs s))%nat) by (apply nth_error_Some; congruence).
  destruct (si_obj _ H i Hi) as (c & stk & E' & R & X). rewrite E' in E. injection E as <-. specialize (P _ _ eq_refl).
  destruct (ingone i s) eqn:G.
  { apply ingone_In in G. destruct (si_gone _ H i G) as [U NR]. destruct a; try exact H.
    - exfalso. destruct (C eq_refl); [congruence|contradiction].
    - destruct stk as [|f t]; [exact H|]. exfalso. apply NR. now exists c, f, t. }
  assert (G' : ~ In i (gone s)) by (rewrite <- ingone_In; congruence).
  destruct (step (Run c stk) a) as [c' stk'|r c'] eqn:Es; [|eauto].
  assert (R' : reached c' stk') by (eapply reached_step; eauto).
  pose proof (count_grows _ _ _ _ _ R P N Es) as CG.
  assert (KI : in_use s i = true -> in_ok c' = true).
  { intros U. destruct X as [[X _]|(_ & X1 & X2)]; [congruence|]. pose proof (step_in c stk a (open_in _ _ R X1 X2) (init_resets _ N)) as Q1. rewrite Es in Q1. cbn [gconn] in Q1. congruence. }
  destruct (Nat.ltb_spec (closed_count c) (closed_count c')) as [L|L].
  - destruct (proj1 CG L) as [O1 O2]. assert (U : in_use s i = true).
    { destruct X as [[X1 X2]|[X1 _]]; auto. exfalso. destruct X2 as [[[k ->] ->]|X2]; [|contradiction].
      destruct (unused_step k a) as (k' & Ek); [intros Ca; destruct (C Ca) as [U|(c1 & f & t & U)]; congruence|].
      rewrite Es in Ek. injection Ek as -> ->. exact (O1 O2). }
    cbn zeta. rewrite (KI U). apply back_SI; auto. apply Q. exists c, stk, c', stk'. auto.
  - cbn zeta. eapply move_SI; eauto.
    + intros U. destruct X as [[_ X]|[X _]]; [|congruence]. destruct X as [[[k ->] ->]|X]; [|right; rewrite (closed_stays _ _ _ _ _ R P N Es X); auto].
      left. destruct (unused_step k a) as (k' & Ek); [intros Ca; destruct (C Ca) as [U'|(c1 & f & t & U')]; congruence|].
      rewrite Es in Ek. injection Ek as -> ->. split; eauto.
    + intros U. split; [|auto]. intros O. destruct X as [[X _]|(_ & X & _)]; [congruence|]. assert (closed_count c < closed_count c')%nat by (apply CG; auto). lia.
Qed.

Lemma sstep_SI s a : SI s -> spolite s a -> match sstep (SRun s) a with SRun s' => SI s' | SFault f => exists r, f = FConnection r end.
Proof. intros H P. destruct a as [so data|i a]; [now apply accept_SI|now apply sconn_SI]. Qed.
Definition SGood (g : scfg) : Prop := match g with SRun s => SI s | SFault f => exists r, f = FConnection r end.
Lemma srun_SI l : forall g, SGood g -> spolite_run g l -> SGood (srun g l).
Proof.
  induction l as [|a l IH]; intros g H P; auto. cbn [srun fold_left]. fold (srun (sstep g a) l). destruct P as [P1 P2]. apply IH; auto.
  destruct g as [s|f]; [|exact H]. apply sstep_SI; auto.
Qed.

(** ** C44 *)
(** a connection object is handed out only when it is not serving a socket and was not destroyed *)
Theorem C44_exclusive_partial l s h1 i h2 : spolite_run sstart l -> srun sstart l = SRun s -> hist s = h1 ++ SHanded i :: h2 ->
  busy (rev h1) i = false /\ ~ In (SDeleted i) h1.
Proof. intros P E. pose proof (srun_SI l sstart start_SI P) as G. rewrite E in G. apply (si_hist _ G). Qed.
(** every connection ever made is, at any time, exactly one of: idle in the pool, serving a socket, destroyed *)
Theorem C44_accounting_partial l s : spolite_run sstart l -> srun sstart l = SRun s ->
  NoDup (pool s) /\ (length (pool s) <= 25)%nat /\
  (forall i, In i (pool s) <-> (i < length (objs s))%nat /\ in_use s i = false /\ ~ deleted s i) /\
  (forall i, deleted s i -> in_use s i = false) /\
  (forall i, in_use s i = true -> exists c stk, nth_error (objs s) i = Some (Run c stk) /\ ~ In OClosed (log c)).
Proof.
  intros P E. pose proof (srun_SI l sstart start_SI P) as G. rewrite E in G. destruct G as [H1 H2 H3 H4 H5 H6 H7 H8].
  split; auto. split; auto. split; [|split].
  - intros i. rewrite <- H7. split; [intros I; assert (Hi : (i < length (objs s))%nat) by auto; apply H5 in I; tauto|intros (A & B & C); apply H5; auto].
  - intros i D. apply H7 in D. apply H6. exact D.
  - intros i U. destruct (H3 i (H4 _ (or_intror (or_intror U)))) as (c & stk & Ec & _ & [[X _]|(_ & X & _)]); [congruence|eauto].
Qed.
(** no destroyed connection, and no connection without device, is ever used by the server or by its own calls *)
Theorem C44_no_dangling_partial l f : spolite_run sstart l -> srun sstart l = SFault f -> exists r, f = FConnection r.
Proof. intros P E. pose proof (srun_SI l sstart start_SI P) as G. rewrite E in G. exact G. Qed.

(** ** Examples: a decision procedure for [spolite] *)
Definition quietb (s : srv) : bool :=
  forallb (fun i => match nth_error (objs s) i with Some (Run _ (_ :: _)) => false | _ => true end) (pool s).
Definition runningb (s : srv) (i : nat) : bool := match nth_error (objs s) i with Some (Run _ (_ :: _)) => true | _ => false end.
Definition closesb (s : srv) (i : nat) (a : action) : bool :=
  match nth_error (objs s) i with
  | Some (Run c stk) => match step (Run c stk) a with Run c' _ => (closed_count c <? closed_count c')%nat | UB _ _ => false end
  | _ => false
  end.
Definition spoliteb (s : srv) (a : saction) : bool :=
  match a with
  | SAccept _ _ => quietb s
  | SConn i a => negb (is_init_action a) && match nth_error (objs s) i with Some (Run c stk) => politeb c stk a | _ => true end &&
      (negb (is_call a) || in_use s i || runningb s i) && (negb (closesb s i a) || quietb s)
  end.
Fixpoint spoliteb_run (g : scfg) (l : list saction) : bool :=
  match l with
  | [] => true
  | a :: t => (match g with SRun s => spoliteb s a | SFault _ => true end) && spoliteb_run (sstep g a) t
  end.
Lemma quietb_ok s : quietb s = true -> quiet s.
Proof.
  intros H i I (c & f & t & E). unfold quietb in H. rewrite forallb_forall in H. specialize (H i I). rewrite E in H. discriminate.
Qed.
Lemma spoliteb_ok s a : spoliteb s a = true -> spolite s a.
Proof.
  destruct a as [so data|i a]; cbn [spoliteb spolite]; [apply quietb_ok|]. intros H.
  apply andb_prop in H as [H H4]. apply andb_prop in H as [H H3]. apply andb_prop in H as [H1 H2]. split; [now apply negb_true_iff in H1|]. split; [|split].
  - intros c stk E. rewrite E in H2. now apply politeb_ok.
  - intros C. rewrite C in H3. cbn [negb orb] in H3. apply orb_prop in H3 as [H3|H3]; auto. right. unfold runningb in H3.
    destruct (nth_error (objs s) i) as [[c [|f t]|]|] eqn:E; try discriminate. now exists c, f, t.
  - intros (c & stk & c' & stk' & E & Es & L). apply quietb_ok. unfold closesb in H4. rewrite E, Es in H4. apply Nat.ltb_lt in L. rewrite L in H4. exact H4.
Qed.
Lemma spoliteb_run_ok l : forall g, spoliteb_run g l = true -> spolite_run g l.
Proof.
  induction l as [|a l IH]; intros g H; cbn in *; auto. apply andb_true_iff in H as (H1 & H2). split; auto.
  destruct g; auto. now apply spoliteb_ok.
Qed.

(** [n] peers connect; connections i.. are closed and their closed signals return *)
Definition peers (n : nat) : list saction := repeat (SAccept true text1) n.
Definition leave (i : nat) : list saction := [SConn i (ACall OpClose); SConn i AReturn].
(** 27 peers come and go, one of them is served in between; two connections are destroyed, one is used again *)
Definition day : list saction := peers 27 ++ [SConn 3 (ACall OpProcess); SConn 3 (ACall (OpWriteResponse 200 [] (lit "x"))); SConn 3 AReturn; SConn 3 AReturn] ++
  concat (map leave (seq 0 27)) ++ peers 1.
Lemma run_hist l h p : (match srun sstart l with SRun s => Some (hist s, pool s) | SFault _ => None end) = Some (h, p) ->
  exists s, srun sstart l = SRun s /\ hist s = h /\ pool s = p.
Proof. destruct (srun sstart l) as [s|]; [|discriminate]. intros E. injection E as <- <-. eauto. Qed.
Example C44_case : spolite_run sstart day /\ exists s h, srun sstart day = SRun s /\ hist s = h ++ [SHanded 26] /\ In (SHanded 26) h /\ In (SDeleted 24) h /\ In (SDeleted 25) h /\ length (pool s) = 24%nat.
Proof.
  split; [apply spoliteb_run_ok; vm_compute; reflexivity|].
  destruct (run_hist day _ _ ltac:(vm_compute; reflexivity)) as (s & E & H & P). exists s.
  exists (map SHanded (rev (seq 0 25) ++ [25; 26]%nat) ++ map SBack (seq 0 26) ++ [SDeleted 24; SBack 26; SDeleted 25]). rewrite H, P. split; [exact E|]. clear.
  split; [vm_compute; reflexivity|]. split; [|split; [|split; [|reflexivity]]]; vm_compute; repeat (first [left; reflexivity | right]).
Qed.

(** ** What does not hold without those conditions *)
(** with 24 idle connections: connection 24 is closed, and inside its closed signal connection 25 is closed: this destroys
    connection 24, whose code is still running *)
Theorem C44_nested_close_refuted :
  let l := peers 26 ++ concat (map leave (seq 0 24)) in
  let m := [SConn 24 (ACall OpClose); SConn 25 (ACall OpClose); SConn 25 AReturn] in
  spolite_run sstart l /\ (exists s, srun sstart (l ++ m) = SRun s /\ in_use s 24 = false /\ In 24%nat (gone s) /\ running s 24) /\
  srun sstart (l ++ m ++ [SConn 24 AReturn]) = SFault FDeletedObject.
Proof.
  cbn zeta. split; [apply spoliteb_run_ok; vm_compute; reflexivity|]. split; [|vm_compute; reflexivity].
  match goal with |- exists s, srun sstart ?l = _ /\ _ => 
    assert (X : match srun sstart l with SRun s => negb (in_use s 24) && ingone 24 s && runningb s 24 | SFault _ => false end = true) by (vm_compute; reflexivity);
    destruct (srun sstart l) as [s|f]; [|discriminate] end.
  exists s. split; [reflexivity|]. apply andb_prop in X as [X X3]. apply andb_prop in X as [X1 X2]. apply negb_true_iff in X1. split; auto.
  split; [now apply ingone_In|]. unfold runningb in X3. destruct (nth_error (objs s) 24) as [[c [|f t]|]|] eqn:E; try discriminate. now exists c, f, t.
Qed.
(** a peer connects inside the closed signal (an event loop runs there): it is given the connection being closed, which loses
    its device when the signal returns; the next event is a null pointer call *)
Theorem C44_accept_in_closed_refuted :
  exists s, srun sstart [SAccept true text1; SConn 24 (ACall OpClose); SAccept true text1] = SRun s /\ in_use s 24 = true /\
  srun sstart [SAccept true text1; SConn 24 (ACall OpClose); SAccept true text1; SConn 24 AReturn; SConn 24 (ACall OpProcess)] = SFault (FConnection NullInput).
Proof.
  match goal with |- exists s, srun sstart ?l = _ /\ _ => 
    assert (X : match srun sstart l with SRun s => in_use s 24 | SFault _ => false end = true) by (vm_compute; reflexivity); destruct (srun sstart l) as [s|f]; [|discriminate] end.
  exists s. split; [reflexivity|]. split; [exact X|]. vm_compute; reflexivity.
Qed.
(** close() inside requestCompleted gives the connection back to the pool while its calls go on: they use its null device,
    or the connection is left flushing and closes a second time *)
Definition close_in_completed (t : bytes) : list saction :=
  [SAccept true t; SConn 24 (ACall OpProcess); SConn 24 (ACall (OpWriteResponse 200 [] (lit "x"))); SConn 24 (ACall OpClose); SConn 24 AReturn; SConn 24 AReturn].
Theorem C44_close_in_completed_refuted :
  srun sstart (close_in_completed text1) = SFault (FConnection NullInput) /\
  let t := lit "GET / HTTP/1.0" ++ CRLF ++ CRLF in
  (exists s, srun sstart (close_in_completed t ++ [SConn 24 AReturn]) = SRun s /\ In 24%nat (pool s) /\
     exists c, nth_error (objs s) 24 = Some (Run c []) /\ st c = Flushing) /\
  srun sstart (close_in_completed t ++ [SConn 24 AReturn; SConn 24 (ACall OpClose)]) = SFault FNullDevice.
Proof.
  split; [vm_compute; reflexivity|]. cbn zeta. split; [|vm_compute; reflexivity].
  match goal with |- exists s, srun sstart ?l = _ /\ _ =>
    assert (X : match srun sstart l with SRun s => existsb (Nat.eqb 24) (pool s) && match nth_error (objs s) 24 with Some (Run c []) => cst_eqb (st c) Flushing | _ => false end | SFault _ => false end = true) by (vm_compute; reflexivity);
    destruct (srun sstart l) as [s|f]; [|discriminate] end.
  exists s. split; [reflexivity|]. apply andb_prop in X as [X1 X2]. split.
  - apply existsb_exists in X1 as (x & I & E). apply Nat.eqb_eq in E. now subst x.
  - destruct (nth_error (objs s) 24) as [[c [|]|]|]; try discriminate. exists c. split; auto. now apply cst_eqb_eq.
Qed.
