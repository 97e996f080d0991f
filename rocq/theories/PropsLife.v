(** PROPERTY C86: every socket and every connection object of a server is destroyed exactly once, and not while it is used. *)
From Coq Require FinFun.
From Verif Require Import Bytes ByteHelpers Thin Helpers ReqGrammar TextSpec Conn ConnSpec ConnInv ConnStep ConnIn ConnLog PropsConn PropsConn7 Server PropsServer Life.
Open Scope Z_scope.

Fixpoint lpolite_run (g : lcfg) (l : list laction) {struct l} : Prop :=
  match l with
  | [] => True
  | a :: t => (match g with LRun v => lpolite v a spolite | _ => True end) /\ lpolite_run (lstep g a) t
  end.

(** ** Histories *)
Lemma story_app k h h' : story k (h ++ h') = story k h ++ story k h'.
Proof. apply filter_app. Qed.
Lemma deaths_app o h h' : deaths o (h ++ h') = (deaths o h + deaths o h')%nat.
Proof. unfold deaths. now rewrite filter_app, app_length. Qed.
Lemma deaths_story k h : deaths (LS k) h = deaths (LS k) (story k h).
Proof.
  unfold deaths, story. induction h as [|x h IH]; [reflexivity|]. destruct x as [k' i|k' i|[i|k']|i]; cbn [filter about]; auto.
  - destruct (k =? k')%nat; cbn [filter]; auto.
  - destruct (k =? k')%nat; cbn [filter]; auto.
  - destruct (Nat.eqb_spec k k') as [->|N]; cbn [filter].
    + destruct (lobj_eq_dec (LS k') (LS k')); [|congruence]. cbn [length]. now rewrite IH.
    + destruct (lobj_eq_dec (LS k) (LS k')); [congruence|]. exact IH.
Qed.
Lemma deadb_deaths o h : deadb o h = true <-> (0 < deaths o h)%nat.
Proof.
  unfold deadb, deaths. induction h as [|x h IH]; [cbn; split; [discriminate|lia]|]. cbn [existsb filter].
  destruct x as [k i|k i|o'|i]; cbn [orb]; auto. destruct (lobj_eq_dec o o'); cbn [orb length]; [intuition lia|exact IH].
Qed.
Lemma deadb_none o h : deadb o h = false <-> deaths o h = 0%nat.
Proof. pose proof (deadb_deaths o h) as H. destruct (deadb o h); intuition (try lia; try discriminate). Qed.
Lemma deaths_dead o o' : deaths o [ODead o'] = if lobj_eq_dec o o' then 1%nat else 0%nat.
Proof. unfold deaths. cbn. destruct (lobj_eq_dec o o'); reflexivity. Qed.
Lemma deaths_LS_give o k i : deaths o [OGive k i] = 0%nat.
Proof. reflexivity. Qed.
Lemma deaths_dels o d : deaths o (deleted_of (map SDeleted d)) = match o with LC i => count_occ Nat.eq_dec d i | LS _ => 0%nat end.
Proof.
  induction d as [|x d IH]; [destruct o; reflexivity|]. cbn [map deleted_of]. change (ODead (LC x) :: deleted_of (map SDeleted d)) with ([ODead (LC x)] ++ deleted_of (map SDeleted d)).
  rewrite deaths_app, IH, deaths_dead. destruct o as [i|k]; cbn [count_occ].
  - destruct (lobj_eq_dec (LC i) (LC x)) as [E|E], (Nat.eq_dec x i) as [E'|E']; try congruence; lia.
  - destruct (lobj_eq_dec (LS k) (LC x)); [congruence|reflexivity].
Qed.
Lemma story_dels k d : story k (deleted_of (map SDeleted d)) = [].
Proof. induction d; cbn; auto. Qed.
Lemma deaths_socks o l : deaths o (map (fun k => ODead (LS k)) l) = match o with LC _ => 0%nat | LS k => count_occ Nat.eq_dec l k end.
Proof.
  induction l as [|x l IH]; [destruct o; reflexivity|]. cbn [map]. change (ODead (LS x) :: map (fun k => ODead (LS k)) l) with ([ODead (LS x)] ++ map (fun k => ODead (LS k)) l).
  rewrite deaths_app, IH, deaths_dead. destruct o as [i|k]; cbn [count_occ].
  - destruct (lobj_eq_dec (LC i) (LS x)); [congruence|reflexivity].
  - destruct (lobj_eq_dec (LS k) (LS x)) as [E|E], (Nat.eq_dec x k) as [E'|E']; try congruence; lia.
Qed.
Lemma story_socks k l : NoDup l -> story k (map (fun k => ODead (LS k)) l) = if in_dec Nat.eq_dec k l then [ODead (LS k)] else [].
Proof.
  induction l as [|x l IH]; intros N; [reflexivity|]. apply NoDup_cons_iff in N as [N1 N2]. specialize (IH N2). cbn [map story filter about].
  fold (story k (map (fun k => ODead (LS k)) l)). rewrite IH. destruct (Nat.eqb_spec k x) as [->|Ne].
  - destruct (in_dec Nat.eq_dec x l); [contradiction|]. destruct (in_dec Nat.eq_dec x (x :: l)) as [|F]; [reflexivity|]. exfalso. apply F. now left.
  - destruct (in_dec Nat.eq_dec k l) as [A|A], (in_dec Nat.eq_dec k (x :: l)) as [B|B]; auto; exfalso.
    + apply B. now right. + destruct B; [congruence|contradiction].
Qed.
Lemma anyone_none s : anyone_running s = false <-> forall i, ~ running s i.
Proof.
  unfold anyone_running, running. split.
  - intros H i (c & f & t & E). apply nth_error_In in E. apply Bool.not_true_iff_false in H. apply H. apply existsb_exists. exists (Run c (f :: t)). auto.
  - intros H. apply Bool.not_true_iff_false. intros X. apply existsb_exists in X as (g & G & X). apply In_nth_error in G as (n & G).
    destruct g as [c [|f t]|]; try discriminate. apply (H n). exists c, f, t. exact G.
Qed.

(** ** The steps of the server, seen from outside *)
Lemma accept_facts s so data s' : SI s -> quiet s -> sstep (SRun s) (SAccept so data) = SRun s' ->
  exists i p o c', takeConnection s = (i, mkSrv p o (gone s) (hist s)) /\ hist s' = hist s ++ [SHanded i] /\ gone s' = gone s /\ pool s' = p /\
    nth_error (objs s') i = Some (Run c' []) /\ in_ok c' = true /\ length (objs s') = length o /\ in_use s i = false /\ ~ In i (gone s) /\
    (forall x, x <> i -> nth_error (objs s') x = nth_error o x) /\
    (pool s = [] /\ i = length (objs s) /\ o = objs s ++ [start] /\ p = [] \/ pool s = i :: p /\ o = objs s /\ (i < length (objs s))%nat).
Proof.
  intros H Q E. cbn [sstep] in E. unfold takeConnection in *. destruct (pool s) as [|i p] eqn:Ep.
  - cbn [create objs] in *. rewrite nth_error_app2, Nat.sub_diag in E by lia. cbn [nth_error] in E.
    destruct (ingone _ _) eqn:G; [discriminate|]. unfold start at 1 in E.
    destruct (step (Run conn0 []) _) as [c' stk'|r c'] eqn:Es; [|discriminate].
    destruct (reach_init _ _ _ _ _ start_reached' (or_introl (ex_intro _ 0 eq_refl)) Es) as (R & -> & L & Ok).
    injection E as <-. exists (length (objs s)), [], (objs s ++ [start]), c'. cbn [set_obj hist gone pool objs]. repeat (split; [try reflexivity|]).
    + unfold create. now rewrite Ep.
    + exact Ep.
    + rewrite nth_set_same by (rewrite app_length; cbn; lia). reflexivity.
    + exact Ok. + now rewrite len_set.
    + destruct (in_use s (length (objs s))) eqn:U; auto. pose proof (si_range _ H _ (or_intror (or_intror U))). lia.
    + intros U. pose proof (si_range _ H _ (or_intror (or_introl U))). lia.
    + intros x Hx. now rewrite nth_set_other by auto.
    + left. auto.
  - assert (Hi : (i < length (objs s))%nat) by (apply (si_range _ H); left; rewrite Ep; now left).
    destruct (si_obj _ H i Hi) as (c & stk & Ec & R & X). cbn [objs] in E. rewrite Ec in E.
    assert (W : ~ In i (gone s) /\ in_use s i = false) by (apply (si_where _ H); auto; rewrite Ep; now left).
    destruct (ingone i _) eqn:G; [discriminate|].
    assert (S : stk = []). { destruct stk as [|f t]; auto. exfalso. apply (Q i); [rewrite Ep; now left|]. exists c, f, t. exact Ec. }
    subst stk. destruct X as [[_ X]|[X _]]; [|rewrite (proj2 W) in X; discriminate].
    destruct (step (Run c []) _) as [c' stk'|r c'] eqn:Es; [|discriminate].
    destruct (reach_init _ _ _ _ _ R ltac:(destruct X as [[X _]|X]; auto) Es) as (R' & -> & L & Ok).
    injection E as <-. exists i, p, (objs s), c'. cbn [set_obj hist gone pool objs]. repeat (split; [try reflexivity|]).
    + now rewrite nth_set_same by auto.
    + exact Ok. + now rewrite len_set. + apply W. + apply W.
    + intros x Hx. now rewrite nth_set_other by auto.
    + right. auto.
Qed.

Lemma conn_facts s i a s' : SI s -> spolite s (SConn i a) -> sstep (SRun s) (SConn i a) = SRun s' ->
  length (objs s') = length (objs s) /\ (forall x, x <> i -> nth_error (objs s') x = nth_error (objs s) x) /\
  ((hist s' = hist s /\ gone s' = gone s /\ pool s' = pool s) \/
   (exists d, hist s' = hist s ++ SBack i :: map SDeleted d /\ gone s' = d ++ gone s /\ NoDup d /\ (forall x, In x d -> In x (pool s)) /\
      in_use s i = true /\ ~ In i (gone s) /\ exists c stk, nth_error (objs s') i = Some (Run c stk) /\ in_ok c = true)).
Proof.
  intros H P E. pose proof H as HI. destruct P as (N & P & C & Q). cbn [sstep] in E. destruct (nth_error (objs s) i) as [g|] eqn:En; [|injection E as <-; split; [reflexivity|]; split; [auto|left; auto]].
  assert (Hi : (i < length (objs s))%nat) by (apply nth_error_Some; congruence).
  destruct (si_obj _ H i Hi) as (c & stk & E' & R & X). rewrite E' in En. injection En as <-. specialize (P _ _ eq_refl).
  destruct (ingone i s) eqn:G.
  { assert (E2 : s' = s) by (destruct a; [discriminate|destruct stk; [congruence|discriminate]|congruence|congruence|congruence]).
    subst s'. split; [reflexivity|]. split; [auto|]. left. auto. }
  assert (G' : ~ In i (gone s)) by (rewrite <- ingone_In; congruence).
  destruct (step (Run c stk) a) as [c' stk'|r c'] eqn:Es; [|discriminate].
  pose proof (count_grows _ _ _ _ _ R P N Es) as CG. cbn zeta in E.
  destruct (Nat.ltb_spec (closed_count c) (closed_count c')) as [L|L].
  - destruct (in_ok c') eqn:Ok; [|discriminate]. injection E as <-.
    destruct (proj1 CG L) as [O1 O2]. assert (U : in_use s i = true).
    { destruct X as [[X1 X2]|[X1 _]]; auto. exfalso. destruct X2 as [[[k ->] ->]|X2]; [|contradiction].
      destruct (unused_step k a) as (k' & Ek); [intros Ca; destruct (C Ca) as [U|(c1 & f & t & U)]; congruence|].
      rewrite Es in Ek. injection Ek as -> ->. exact (O1 O2). }
    unfold connection_closed, putConnection, set_obj. cbn [pool objs gone hist].
    destruct (trim_spec (pool s)) as [T1 T2]. destruct (trim (pool s)) as [kk d]. cbn [fst snd pool objs gone hist] in *.
    split; [apply len_set|]. split; [intros x Hx; now rewrite nth_set_other by auto|]. right. exists d.
    split; [now rewrite <- app_assoc|]. split; [reflexivity|]. split.
    { pose proof (si_nodup _ H) as ND. rewrite T1 in ND. clear -ND. induction d as [|x d IH]; [constructor|]. cbn in ND. apply NoDup_cons_iff in ND as [A B]. constructor; auto.
      intros F. apply A, in_app_iff. auto. }
    split; [intros x Hx; rewrite T1; apply in_app_iff; auto|]. split; [exact U|]. split; [exact G'|].
    exists c', stk'. split; [now rewrite nth_set_same by auto|exact Ok].
  - injection E as <-. unfold set_obj. cbn [pool objs gone hist]. split; [apply len_set|]. split; [intros x Hx; now rewrite nth_set_other by auto|]. left. split; [reflexivity|]. split; reflexivity.
Qed.

(** ** The invariant *)
Record LI (v : life) : Prop := mkLI {
  li_si : SI (l_srv v);
  li_dev : forall i k, l_dev v i = Some k -> exists c stk, nth_error (objs (l_srv v)) i = Some (Run c stk) /\ in_ok c = true;
  li_use : forall i, in_use (l_srv v) i = true -> exists k, l_dev v i = Some k /\ story k (l_hist v) = [OGive k i];
  li_rel : forall i k, l_dev v i = Some k -> in_use (l_srv v) i = false -> story k (l_hist v) = [OGive k i; OLater k i];
  li_story : forall k, (k < l_next v)%nat -> story k (l_hist v) = [ODead (LS k)] \/
     exists i, (story k (l_hist v) = [OGive k i] /\ in_use (l_srv v) i = true /\ l_dev v i = Some k) \/
               story k (l_hist v) = [OGive k i; OLater k i] /\ In k (l_later v) \/
               story k (l_hist v) = [OGive k i; OLater k i; ODead (LS k)];
  li_new : forall k, (l_next v <= k)%nat -> story k (l_hist v) = [];
  li_later : forall k, In k (l_later v) -> exists i, story k (l_hist v) = [OGive k i; OLater k i];
  li_nodup : NoDup (l_born v);
  li_bornC : forall i, In (LC i) (l_born v) <-> (i < length (objs (l_srv v)))%nat;
  li_bornS : forall k, In (LS k) (l_born v) <-> (k < l_next v)%nat;
  li_dead : forall i, deaths (LC i) (l_hist v) = if in_dec Nat.eq_dec i (gone (l_srv v)) then 1%nat else 0%nat;
  li_norep : forall i, ~ In (OReport i) (l_hist v) }.

Lemma lstart_LI : LI life0.
Proof.
  unfold life0. pose proof start_SI as HS. assert (H1 : hist srv0 = []) by (vm_compute; reflexivity).
  assert (H2 : length (objs srv0) = MaximumReserveCount) by (vm_compute; reflexivity). assert (H3 : gone srv0 = []) by (vm_compute; reflexivity).
  generalize dependent srv0. intros s HS H1 H2 H3.
  constructor; cbn [l_srv l_dev l_later l_born l_next l_hist].
  - exact HS.
  - intros i k E. discriminate.
  - intros i U. unfold in_use in U. rewrite H1 in U. discriminate.
  - intros i k E. discriminate.
  - intros k Hk. lia.
  - intros k _. reflexivity.
  - intros k [].
  - apply FinFun.Injective_map_NoDup; [intros a b E; congruence|apply seq_NoDup].
  - intros i. rewrite in_map_iff, H2. split.
    + intros (x & E & X). injection E as ->. apply in_seq in X. lia.
    + intros X. exists i. split; auto. apply in_seq. lia.
  - intros k. split; [intros X; apply in_map_iff in X as (x & E & _); discriminate|lia].
  - intros i. rewrite H3. reflexivity.
  - intros i [].
Qed.

Lemma NoDup_snoc {A} (l : list A) x : NoDup l -> ~ In x l -> NoDup (l ++ [x]).
Proof.
  intros N H. rewrite <- (List.rev_involutive (l ++ [x])), List.rev_app_distr. apply List.NoDup_rev. cbn.
  constructor; [now rewrite <- List.in_rev|now apply List.NoDup_rev].
Qed.

(** a refused socket *)
Lemma refuse_LI v : LI v -> LI (refuseSocket v).
Proof.
  intros []. unfold refuseSocket, newSocket. cbn [l_srv l_dev l_later l_born l_next l_hist].
  assert (S1 : forall k, story k (l_hist v ++ [ODead (LS (l_next v))]) = story k (l_hist v) ++ (if (k =? l_next v)%nat then [ODead (LS (l_next v))] else [])).
  { intros k. now rewrite story_app. }
  assert (S2 : forall k x, story k (l_hist v) = x -> x <> [] -> story k (l_hist v ++ [ODead (LS (l_next v))]) = x).
  { intros k x E N. rewrite S1. destruct (Nat.eqb_spec k (l_next v)) as [->|]; [|now rewrite app_nil_r]. exfalso. apply N. rewrite <- E. apply li_new0. lia. }
  constructor; cbn [l_srv l_dev l_later l_born l_next l_hist]; auto.
  - intros i U. destruct (li_use0 i U) as (k & A & B). exists k. split; auto. apply S2; [exact B|discriminate].
  - intros i k A U. apply S2; [now apply li_rel0|discriminate].
  - intros k Hk. assert (k = l_next v \/ (k < l_next v)%nat) as [->|Hk'] by lia.
    + left. rewrite S1, Nat.eqb_refl, (li_new0 (l_next v)) by lia. reflexivity.
    + destruct (li_story0 k Hk') as [A|(i & [(A & B)|[(A & B)|A]])].
      * left. apply S2; [exact A|discriminate].
      * right. exists i. left. split; auto. apply S2; [exact A|discriminate].
      * right. exists i. right. left. split; auto. apply S2; [exact A|discriminate].
      * right. exists i. right. right. apply S2; [exact A|discriminate].
  - intros k Hk. rewrite S1, (li_new0 k) by lia. destruct (Nat.eqb_spec k (l_next v)); [lia|reflexivity].
  - intros k Hk. destruct (li_later0 k Hk) as (i & A). exists i. apply S2; [exact A|discriminate].
  - apply NoDup_snoc; auto. rewrite li_bornS0. lia.
  - intros i. rewrite in_app_iff. cbn. rewrite li_bornC0. intuition discriminate.
  - intros k. rewrite in_app_iff. cbn. rewrite li_bornS0. split; [intros [A|[A|[]]]; [lia|injection A as ->; lia]|].
    intros A. assert (k = l_next v \/ (k < l_next v)%nat) as [->|] by lia; auto.
  - intros i. rewrite deaths_app, deaths_dead, li_dead0. destruct (lobj_eq_dec _ _); [discriminate|]. lia.
  - intros i. rewrite in_app_iff. cbn. intros [A|[A|[]]]; [eapply li_norep0; eauto|discriminate].
Qed.

(** a socket given to a connection *)
Lemma hand_LI v so data : LI v -> quiet (l_srv v) ->
  match handSocket so data v with LRun v' => LI v' | LFault f => exists r, f = LServer (FConnection r) | LEnd _ _ => False end.
Proof.
  intros HV Q. pose proof (accept_SI _ so data (li_si _ HV) Q) as HS.
  unfold handSocket. destruct (takeConnection (l_srv v)) as [i0 st0] eqn:Et. cbn zeta. change (l_srv (newSocket v)) with (l_srv v).
  destruct (sstep (SRun (l_srv v)) (SAccept so data)) as [s'|f] eqn:Es; [|destruct HS as (r & ->); eauto].
  destruct (accept_facts _ _ _ _ (li_si _ HV) Q Es) as (i & p & o & c' & E1 & Hh & Hg & Hp & Hi & Ok & Hl & Hu & Hgi & Ho & Hc).
  rewrite E1 in Et. injection Et as <- <-. cbn [objs].
  assert (U' : forall x, in_use s' x = if (x =? i)%nat then true else in_use (l_srv v) x).
  { intros x. unfold in_use. rewrite Hh, busy_snoc. reflexivity. }
  destruct HV. unfold newSocket. cbn [l_srv l_dev l_later l_born l_next l_hist] in *.
  assert (S1 : forall k, story k (l_hist v ++ [OGive (l_next v) i]) = story k (l_hist v) ++ (if (k =? l_next v)%nat then [OGive (l_next v) i] else [])).
  { intros k. now rewrite story_app. }
  assert (S2 : forall k x, story k (l_hist v) = x -> x <> [] -> story k (l_hist v ++ [OGive (l_next v) i]) = x).
  { intros k x E N. rewrite S1. destruct (Nat.eqb_spec k (l_next v)) as [->|]; [|now rewrite app_nil_r]. exfalso. apply N. rewrite <- E. apply li_new0. lia. }
  assert (Lo : (length (objs (l_srv v)) <= length o)%nat) by (destruct Hc as [(_ & _ & -> & _)|(_ & -> & _)]; [rewrite app_length; lia|lia]).
  assert (Io : forall x, (x < length (objs (l_srv v)))%nat -> nth_error o x = nth_error (objs (l_srv v)) x).
  { intros x Hx. destruct Hc as [(_ & _ & -> & _)|(_ & -> & _)]; [now rewrite nth_error_app1|reflexivity]. }
  constructor; cbn [l_srv l_dev l_later l_born l_next l_hist]; auto.
  - intros x k. destruct (Nat.eqb_spec x i) as [->|N]; [intros _; eauto|]. intros E. destruct (li_dev0 x k E) as (c & stk & A & B).
    exists c, stk. split; auto. rewrite Ho, Io; auto. apply nth_error_Some. congruence.
  - intros x. rewrite U'. destruct (Nat.eqb_spec x i) as [->|N].
    + intros _. exists (l_next v). split; auto. rewrite S1, Nat.eqb_refl, (li_new0 (l_next v)) by lia. reflexivity.
    + intros U. destruct (li_use0 x U) as (k & A & B). exists k. split; auto. apply S2; [exact B|discriminate].
  - intros x k. rewrite U'. destruct (Nat.eqb_spec x i) as [->|N]; [discriminate|]. intros A U. apply S2; [now apply li_rel0|discriminate].
  - intros k Hk. assert (k = l_next v \/ (k < l_next v)%nat) as [->|Hk'] by lia.
    + right. exists i. left. rewrite S1, Nat.eqb_refl, (li_new0 (l_next v)), U', Nat.eqb_refl by lia. auto.
    + destruct (li_story0 k Hk') as [A|(x & [(A & B & C)|[(A & B)|A]])].
      * left. apply S2; [exact A|discriminate].
      * right. exists x. left. rewrite U'. assert (x <> i) by (intros ->; congruence). destruct (Nat.eqb_spec x i); [contradiction|].
        split; auto. apply S2; [exact A|discriminate].
      * right. exists x. right. left. split; auto. apply S2; [exact A|discriminate].
      * right. exists x. right. right. apply S2; [exact A|discriminate].
  - intros k Hk. rewrite S1, (li_new0 k) by lia. destruct (Nat.eqb_spec k (l_next v)); [lia|reflexivity].
  - intros k Hk. destruct (li_later0 k Hk) as (x & A). exists x. apply S2; [exact A|discriminate].
  - assert (N1 : NoDup (l_born v ++ [LS (l_next v)])) by (apply NoDup_snoc; auto; rewrite li_bornS0; lia).
    destruct Hc as [(_ & _ & -> & _)|(_ & -> & _)].
    + rewrite app_length. cbn [length]. replace (_ + 1 - _)%nat with 1%nat by lia. cbn [seq map]. apply NoDup_snoc; auto.
      rewrite in_app_iff. cbn. rewrite li_bornC0. intros [A|[A|[]]]; [lia|discriminate].
    + rewrite Nat.sub_diag. cbn [seq map]. now rewrite app_nil_r.
  - intros x. rewrite !in_app_iff, li_bornC0, Hl. cbn. rewrite in_map_iff. split.
    + intros [[A|[A|[]]]|(y & A & B)]; [lia|discriminate|]. injection A as ->. apply in_seq in B. lia.
    + intros A. destruct (Nat.lt_ge_cases x (length (objs (l_srv v)))); auto. right. exists x. split; auto. apply in_seq. lia.
  - intros k. rewrite !in_app_iff, li_bornS0. cbn. rewrite in_map_iff. split.
    + intros [[A|[A|[]]]|(y & A & B)]; [lia|injection A as ->; lia|discriminate].
    + intros A. left. assert (k = l_next v \/ (k < l_next v)%nat) as [->|] by lia; auto.
  - intros x. rewrite deaths_app, deaths_LS_give, li_dead0, Hg. lia.
  - intros x. rewrite in_app_iff. cbn. intros [A|[A|[]]]; [eapply li_norep0; eauto|discriminate].
Qed.

(** anything that happens to a connection *)
Lemma back_of_dels d : back_of (map SDeleted d) = None.
Proof. destruct d; reflexivity. Qed.
Lemma conn_LI v i a : LI v -> spolite (l_srv v) (SConn i a) ->
  match connEvent i a v with LRun v' => LI v' | LFault f => exists r, f = LServer (FConnection r) | LEnd _ _ => False end.
Proof.
  intros HV P. pose proof (sconn_SI _ i a (li_si _ HV) P) as HS. unfold connEvent. cbn zeta.
  destruct (sstep (SRun (l_srv v)) (SConn i a)) as [s'|f] eqn:Es; [|destruct HS as (r & ->); eauto].
  destruct (conn_facts _ _ _ _ (li_si _ HV) P Es) as (Hl & Ho & Hc).
  set (dev := fun x => if (x =? i)%nat then _ else l_dev v x).
  assert (D1 : forall x k, dev x = Some k -> l_dev v x = Some k /\ exists c stk, nth_error (objs s') x = Some (Run c stk) /\ in_ok c = true).
  { intros x k. unfold dev. destruct (Nat.eqb_spec x i) as [->|N].
    - destruct (nth_error (objs s') i) as [[c stk|]|] eqn:En.
      + destruct (in_ok c) eqn:Ok; [|discriminate]. intros E. split; eauto.
      + intros E. exfalso. destruct (li_dev _ HV i k E) as (c & stk & A & _). assert (Hi : (i < length (objs s'))%nat) by (rewrite Hl; apply nth_error_Some; congruence).
        destruct (si_obj _ HS i Hi) as (c1 & stk1 & B & _). congruence.
      + intros E. exfalso. destruct (li_dev _ HV i k E) as (c & stk & A & _). apply nth_error_None in En. rewrite Hl in En. apply nth_error_None in En. congruence.
    - intros E. split; auto. destruct (li_dev _ HV x k E) as (c & stk & A & B). exists c, stk. rewrite Ho by auto. auto. }
  assert (D2 : forall x k, l_dev v x = Some k -> in_use s' x = true -> dev x = Some k).
  { intros x k E U. unfold dev. destruct (Nat.eqb_spec x i) as [->|N]; auto.
    assert (Hi : (i < length (objs s'))%nat) by (apply (si_range _ HS); auto).
    destruct (si_obj _ HS i Hi) as (c1 & stk1 & B & _ & [[C _]|(_ & _ & C)]); [congruence|]. now rewrite B, C. }
  clearbody dev.
  destruct Hc as [(Hh & Hg & Hp)|(d & Hh & Hg & Nd & Hd & Hu & Hgi & c & stk & Hn & Ok)].
  - rewrite Hh, List.skipn_all. cbn [back_of].
    assert (U' : forall x, in_use s' x = in_use (l_srv v) x) by (intros x; unfold in_use; now rewrite Hh).
    destruct HV. constructor; cbn [l_srv l_dev l_later l_born l_next l_hist]; auto.
    + intros x k E. now apply D1 with k.
    + intros x U. rewrite U' in U. destruct (li_use0 x U) as (k & A & B). exists k. split; auto. apply D2; auto. now rewrite U'.
    + intros x k E U. rewrite U' in U. apply li_rel0; auto. now apply D1.
    + intros k Hk. destruct (li_story0 k Hk) as [A|(x & [(A & B & C)|D])]; [now left| |right; eauto].
      right. exists x. left. rewrite U'. split; [exact A|]. split; [exact B|]. apply D2; auto. now rewrite U'.
    + intros x. now rewrite Hl.
    + intros x. now rewrite Hg.
  - rewrite Hh, List.skipn_app, List.skipn_all, Nat.sub_diag. cbn [List.skipn app back_of].
    destruct (li_use _ HV i Hu) as (k0 & E0 & S0). rewrite E0. cbn [deleted_of].
    assert (U' : forall x, in_use s' x = if (x =? i)%nat then false else in_use (l_srv v) x).
    { intros x. unfold in_use. rewrite Hh. change (SBack i :: map SDeleted d) with ([SBack i] ++ map SDeleted d). rewrite app_assoc, busy_deleted, busy_snoc. reflexivity. }
    destruct HV.
    assert (K0 : (k0 < l_next v)%nat). { destruct (Nat.lt_ge_cases k0 (l_next v)); auto. rewrite (li_new0 k0) in S0 by auto. discriminate. }
    assert (S1 : forall k, story k (l_hist v ++ OLater k0 i :: deleted_of (map SDeleted d)) = story k (l_hist v) ++ (if (k =? k0)%nat then [OLater k0 i] else [])).
    { intros k. rewrite story_app. f_equal. cbn [story filter about]. change (filter (about k) (deleted_of (map SDeleted d))) with (story k (deleted_of (map SDeleted d))).
      rewrite story_dels. destruct (k =? k0)%nat; reflexivity. }
    assert (S2 : forall k x, story k (l_hist v) = x -> x <> [OGive k0 i] -> story k (l_hist v ++ OLater k0 i :: deleted_of (map SDeleted d)) = x).
    { intros k x E N. rewrite S1. destruct (Nat.eqb_spec k k0) as [->|]; [|now rewrite app_nil_r]. exfalso. apply N. congruence. }
    assert (Q1 : story k0 (l_hist v ++ OLater k0 i :: deleted_of (map SDeleted d)) = [OGive k0 i; OLater k0 i]) by (rewrite S1, Nat.eqb_refl, S0; reflexivity).
    constructor; cbn [l_srv l_dev l_later l_born l_next l_hist]; auto.
    + intros x k E. now apply D1 with k.
    + intros x U. pose proof U as U0. rewrite U' in U. destruct (Nat.eqb_spec x i) as [Eq|N]; [discriminate|]. destruct (li_use0 x U) as (k & A & B). exists k.
      split; [apply D2; auto|]. apply S2; [exact B|congruence].
    + intros x k E U. rewrite U' in U. apply D1 in E as [E _]. destruct (Nat.eqb_spec x i) as [->|N].
      * rewrite E0 in E. injection E as <-. exact Q1.
      * apply S2; [now apply li_rel0|discriminate].
    + intros k Hk. destruct (li_story0 k Hk) as [A|(x & [(A & B & C)|[(A & B)|A]])].
      * left. apply S2; [exact A|discriminate].
      * right. destruct (Nat.eq_dec x i) as [->|N].
        -- rewrite E0 in C. injection C as <-. exists i. right. left. split; [exact Q1|]. apply in_app_iff. right. now left.
        -- exists x. left. assert (Ux : in_use s' x = true) by (rewrite U'; destruct (Nat.eqb_spec x i); [contradiction|exact B]).
           split; [apply S2; [exact A|congruence]|]. split; [exact Ux|]. now apply D2.
      * right. exists x. right. left. split; [apply S2; [exact A|discriminate]|]. apply in_app_iff. now left.
      * right. exists x. right. right. apply S2; [exact A|discriminate].
    + intros k Hk. rewrite S1, (li_new0 k) by lia. destruct (Nat.eqb_spec k k0); [lia|reflexivity].
    + intros k Hk. apply in_app_iff in Hk as [Hk|[->|[]]]; [|eauto]. destruct (li_later0 k Hk) as (x & A). exists x. apply S2; [exact A|discriminate].
    + intros x. now rewrite Hl.
    + intros x. rewrite deaths_app. change (OLater k0 i :: deleted_of (map SDeleted d)) with ([OLater k0 i] ++ deleted_of (map SDeleted d)).
      rewrite deaths_app, deaths_dels, li_dead0, Hg. change (deaths (LC x) [OLater k0 i]) with 0%nat.
      destruct (in_dec Nat.eq_dec x (gone (l_srv v))) as [A|A], (in_dec Nat.eq_dec x (d ++ gone (l_srv v))) as [B|B]; rewrite in_app_iff in B.
      * assert (~ In x d) as C. { intros C. apply Hd in C. apply (si_where _ li_si0) in C; [tauto|]. apply (si_range _ li_si0). auto. }
        rewrite (proj1 (count_occ_not_In Nat.eq_dec d x) C). reflexivity.
      * tauto.
      * assert (C : In x d) by tauto. rewrite (proj1 (NoDup_count_occ' Nat.eq_dec d) Nd x C). reflexivity.
      * rewrite (proj1 (count_occ_not_In Nat.eq_dec d x)) by tauto. reflexivity.
    + intros x. rewrite in_app_iff. cbn. intros [A|[A|A]]; [eapply li_norep0; eauto|discriminate|].
      clear -A. induction d as [|y d IH]; [destruct A|]. destruct A as [A|A]; [discriminate|auto].
Qed.

(** the event loop *)
Lemma idle_no_device v i k : LI v -> (forall x, ~ running (l_srv v) x) -> l_dev v i = Some k -> in_use (l_srv v) i = true.
Proof.
  intros HV NR E. destruct (in_use (l_srv v) i) eqn:U; auto. exfalso. destruct (li_dev _ HV i k E) as (c & stk & En & Ok).
  assert (Hi : (i < length (objs (l_srv v)))%nat) by (apply nth_error_Some; congruence).
  destruct (si_obj _ (li_si _ HV) i Hi) as (c1 & stk1 & En1 & R & [[_ X]|[X _]]); [|congruence].
  rewrite En in En1. injection En1 as <- <-.
  assert (Z : stk = []) by (destruct stk as [|f t]; auto; exfalso; apply (NR i); exists c, f, t; exact En). subst stk.
  destruct X as [[[kk ->] _]|X]; [discriminate|].
  destruct (C18_devices_released c [] R (closed_state _ _ R X)) as [A _]; [intros []|congruence].
Qed.
Lemma holder_in_use v k i : LI v -> (forall x, ~ running (l_srv v) x) -> holder v k = Some i -> in_use (l_srv v) i = true /\ l_dev v i = Some k.
Proof.
  intros HV NR E. unfold holder in E. apply List.find_some in E as [_ E]. apply andb_true_iff in E as [E _].
  destruct (l_dev v i) as [k'|] eqn:Ed; [|discriminate]. apply Nat.eqb_eq in E. subst k'. split; auto. eapply idle_no_device; eauto.
Qed.
Lemma loop_eq v : LI v -> (forall x, ~ running (l_srv v) x) -> eventLoop v =
  LRun (mkLife (l_srv v) (l_dev v) [] (l_born v) (l_next v) (l_hist v ++ map (fun k => ODead (LS k)) (nodup Nat.eq_dec (l_later v)))).
Proof.
  intros HV NR. unfold eventLoop. rewrite (proj2 (anyone_none _) NR).
  destruct (find _ (l_later v)) as [k|] eqn:F; [|reflexivity]. exfalso. apply List.find_some in F as [F1 F2].
  destruct (holder v k) as [i|] eqn:H; [|discriminate]. destruct (holder_in_use _ _ _ HV NR H) as [U D].
  destruct (li_use _ HV i U) as (k' & D' & S1). rewrite D in D'. injection D' as <-. destruct (li_later _ HV k F1) as (i' & S2). congruence.
Qed.
Lemma loop_LI v : LI v -> match eventLoop v with LRun v' => LI v' | _ => False end.
Proof.
  intros HV. destruct (anyone_running (l_srv v)) eqn:Ar; [unfold eventLoop; rewrite Ar; exact HV|].
  pose proof (proj1 (anyone_none _) Ar) as NR. rewrite loop_eq by auto.
  assert (ID : forall i k, l_dev v i = Some k -> in_use (l_srv v) i = true) by (intros i k; now apply idle_no_device).
  destruct HV.
  assert (S1 : forall k, story k (l_hist v ++ map (fun k => ODead (LS k)) (nodup Nat.eq_dec (l_later v))) =
                         story k (l_hist v) ++ (if in_dec Nat.eq_dec k (l_later v) then [ODead (LS k)] else [])).
  { intros k. rewrite story_app, story_socks by apply NoDup_nodup. f_equal. pose proof (nodup_In Nat.eq_dec (l_later v) k) as X.
    destruct (in_dec Nat.eq_dec k (nodup Nat.eq_dec (l_later v))), (in_dec Nat.eq_dec k (l_later v)); auto; tauto. }
  assert (S2 : forall k x, story k (l_hist v) = x -> (forall i, x <> [OGive k i; OLater k i]) ->
     story k (l_hist v ++ map (fun k => ODead (LS k)) (nodup Nat.eq_dec (l_later v))) = x).
  { intros k x E N. rewrite S1. destruct (in_dec Nat.eq_dec k (l_later v)) as [A|A]; [|now rewrite app_nil_r]. exfalso. destruct (li_later0 k A) as (i & B). apply (N i). congruence. }
  constructor; cbn [l_srv l_dev l_later l_born l_next l_hist]; auto.
  - intros i U. destruct (li_use0 i U) as (k & A & B). exists k. split; auto. apply S2; [exact B|intros; discriminate].
  - intros i k A U. rewrite (ID i k A) in U. discriminate.
  - intros k Hk. destruct (li_story0 k Hk) as [A|(x & [(A & B & C)|[(A & B)|A]])].
    + left. apply S2; [exact A|intros; discriminate].
    + right. exists x. left. split; auto. apply S2; [exact A|intros; discriminate].
    + right. exists x. right. right. rewrite S1, A. destruct (in_dec Nat.eq_dec k (l_later v)); [reflexivity|contradiction].
    + right. exists x. right. right. apply S2; [exact A|intros; discriminate].
  - intros k Hk. rewrite S1, (li_new0 k) by lia. destruct (in_dec Nat.eq_dec k (l_later v)) as [A|]; [|reflexivity].
    destruct (li_later0 k A) as (i & B). rewrite (li_new0 k) in B by lia. discriminate.
  - intros k [].
  - intros i. rewrite deaths_app, deaths_socks, li_dead0. lia.
  - intros i. rewrite in_app_iff, in_map_iff. intros [A|(y & A & _)]; [eapply li_norep0; eauto|discriminate].
Qed.

(** ** The destructor *)
Lemma dropPool_ok p : forall h, NoDup p -> (forall i, In i p -> deaths (LC i) h = 0%nat) ->
  dropPool p h = inr (h ++ map (fun i => ODead (LC i)) p).
Proof.
  induction p as [|i p IH]; intros h N H; [cbn; now rewrite app_nil_r|]. apply NoDup_cons_iff in N as [N1 N2]. cbn [dropPool].
  rewrite (proj2 (deadb_none _ _) (H i ltac:(now left))). rewrite IH; auto.
  - cbn [map]. now rewrite <- app_assoc.
  - intros j Hj. rewrite deaths_app, deaths_dead, (H j) by (now right). destruct (lobj_eq_dec (LC j) (LC i)) as [E|]; [|reflexivity]. injection E as ->. contradiction.
Qed.
Lemma deaths_conns o l : deaths o (map (fun i => ODead (LC i)) l) = match o with LS _ => 0%nat | LC i => count_occ Nat.eq_dec l i end.
Proof.
  induction l as [|x l IH]; [destruct o; reflexivity|]. cbn [map]. change (ODead (LC x) :: map (fun i => ODead (LC i)) l) with ([ODead (LC x)] ++ map (fun i => ODead (LC i)) l).
  rewrite deaths_app, IH, deaths_dead. destruct o as [i|k]; cbn [count_occ].
  - destruct (lobj_eq_dec (LC i) (LC x)) as [E|E], (Nat.eq_dec x i) as [E'|E']; try congruence; lia.
  - destruct (lobj_eq_dec (LS k) (LC x)); [congruence|reflexivity].
Qed.
Lemma deaths_parting v o o' h : deaths o (parting v o' h) = 0%nat.
Proof. unfold parting. destruct o' as [|k]; [reflexivity|]. destruct (find _ _); [destruct (reports _ _)|]; reflexivity. Qed.
Lemma dropChildren_deaths v o b : forall h, NoDup b -> deaths o (dropChildren v b h) = if in_dec lobj_eq_dec o b then Nat.max 1 (deaths o h) else deaths o h.
Proof.
  induction b as [|x b IH]; intros h N; [reflexivity|]. apply NoDup_cons_iff in N as [N1 N2]. cbn [dropChildren].
  assert (X : deaths o (if deadb x h then h else h ++ parting v x h ++ [ODead x]) = if lobj_eq_dec o x then Nat.max 1 (deaths o h) else deaths o h).
  { destruct (deadb x h) eqn:D.
    - apply deadb_deaths in D. destruct (lobj_eq_dec o x); subst; lia.
    - apply deadb_none in D. rewrite !deaths_app, deaths_parting, deaths_dead. destruct (lobj_eq_dec o x); subst; lia. }
  replace (dropChildren v b (h ++ parting v x h ++ [ODead x])) with (dropChildren v b (h ++ parting v x h ++ [ODead x])) by reflexivity.
  assert (Y : (if deadb x h then dropChildren v b h else dropChildren v b (h ++ parting v x h ++ [ODead x])) = dropChildren v b (if deadb x h then h else h ++ parting v x h ++ [ODead x])) by (destruct (deadb x h); reflexivity).
  rewrite Y, IH by auto. rewrite X. clear X Y.
  destruct (lobj_eq_dec o x) as [->|Ne].
  - destruct (in_dec lobj_eq_dec x b); [contradiction|]. destruct (in_dec lobj_eq_dec x (x :: b)) as [|F]; [reflexivity|]. exfalso. apply F. now left.
  - destruct (in_dec lobj_eq_dec o b) as [A|A], (in_dec lobj_eq_dec o (x :: b)) as [B|B]; auto; exfalso; [apply B; now right|destruct B; [congruence|contradiction]].
Qed.
Lemma destroy_ok v local : LI v -> (forall i, ~ running (l_srv v) i) -> exists h1, destroy local v = LEnd v (dropChildren v (l_born v) h1) /\
  h1 = l_hist v ++ (if local then [] else map (fun i => ODead (LC i)) (pool (l_srv v))).
Proof.
  intros HV NR. unfold destroy. rewrite (proj2 (anyone_none _) NR). destruct local.
  - eexists. split; [reflexivity|]. now rewrite app_nil_r.
  - rewrite dropPool_ok; [eauto|apply (si_nodup _ (li_si _ HV))|]. intros i Hi. rewrite (li_dead _ HV). destruct (in_dec _ _ _) as [A|]; auto.
    exfalso. apply (si_where _ (li_si _ HV)) in Hi; [tauto|]. apply (si_range _ (li_si _ HV)). auto.
Qed.
Lemma destroy_deaths v (local : bool) o : LI v -> deaths o (dropChildren v (l_born v) (l_hist v ++ (if local then @nil lobs else map (fun i : nat => ODead (LC i)) (pool (l_srv v))))) =
  if in_dec lobj_eq_dec o (l_born v) then 1%nat else 0%nat.
Proof.
  intros HV. rewrite dropChildren_deaths by apply (li_nodup _ HV). rewrite deaths_app.
  assert (P : deaths o (if local then [] else map (fun i => ODead (LC i)) (pool (l_srv v))) = match o with LS _ => 0%nat | LC i => if local then 0%nat else count_occ Nat.eq_dec (pool (l_srv v)) i end).
  { destruct local; [destruct o; reflexivity|apply deaths_conns]. }
  rewrite P. clear P. destruct HV. destruct o as [i|k].
  - rewrite li_dead0. assert (C : ~ In i (gone (l_srv v)) \/ count_occ Nat.eq_dec (pool (l_srv v)) i = 0%nat).
    { destruct (in_dec Nat.eq_dec i (gone (l_srv v))) as [A|A]; [right|now left]. apply count_occ_not_In. intros B. apply (si_where _ li_si0) in B; [tauto|]. apply (si_range _ li_si0). auto. }
    assert (C2 : (count_occ Nat.eq_dec (pool (l_srv v)) i <= 1)%nat) by (apply NoDup_count_occ; apply (si_nodup _ li_si0)).
    destruct (in_dec lobj_eq_dec (LC i) (l_born v)) as [B|B].
    + destruct (in_dec Nat.eq_dec i (gone (l_srv v))), local; try lia; destruct C; [contradiction|lia].
    + rewrite li_bornC0 in B. assert (G : ~ In i (gone (l_srv v))) by (intros G; apply B, (si_range _ li_si0); auto).
      assert (Q : ~ In i (pool (l_srv v))) by (intros Q; apply B, (si_range _ li_si0); auto).
      destruct (in_dec Nat.eq_dec i (gone (l_srv v))); [contradiction|]. rewrite (proj1 (count_occ_not_In _ _ _) Q). destruct local; reflexivity.
  - rewrite deaths_story. destruct (in_dec lobj_eq_dec (LS k) (l_born v)) as [B|B]; rewrite li_bornS0 in B.
    + assert (Dk : deaths (LS k) [ODead (LS k)] = 1%nat) by (rewrite deaths_dead; destruct (lobj_eq_dec (LS k) (LS k)); congruence).
      destruct (li_story0 k B) as [A|(x & [(A & _)|[(A & _)|A]])]; rewrite A; [rewrite Dk; reflexivity|reflexivity|reflexivity|].
      change [OGive k x; OLater k x; ODead (LS k)] with ([OGive k x; OLater k x] ++ [ODead (LS k)]). rewrite deaths_app, Dk. reflexivity.
    + rewrite li_new0 by lia. reflexivity.
Qed.

(** ** Runs *)
Lemma lstep_LI v a : LI v -> lpolite v a spolite ->
  match lstep (LRun v) a with LRun v' => LI v' | LFault f => exists r, f = LServer (FConnection r) | LEnd v' _ => v' = v end.
Proof.
  intros HV P. destruct a as [[|] so data|i a| |local]; cbn [lstep lpolite] in *.
  - pose proof (hand_LI v so data HV P) as H. destruct (handSocket so data v); auto. destruct H.
  - now apply refuse_LI.
  - pose proof (conn_LI v i a HV P) as H. destruct (connEvent i a v); auto. destruct H.
  - pose proof (loop_LI v HV) as H. destruct (eventLoop v); auto; destruct H.
  - destruct (destroy_ok v local HV P) as (h1 & -> & _). reflexivity.
Qed.
Definition LGood (g : lcfg) : Prop := match g with LRun v => LI v | LFault f => exists r, f = LServer (FConnection r) | LEnd v _ => LI v end.
Lemma lrun_LI l : forall g, LGood g -> lpolite_run g l -> LGood (lrun g l).
Proof.
  induction l as [|a l IH]; intros g H P; [exact H|]. cbn [lrun fold_left]. fold (lrun (lstep g a) l). destruct P as [P1 P2]. apply IH; auto.
  destruct g as [v|f|v h]; [|exact H|exact H]. pose proof (lstep_LI v a H P1) as X. destruct (lstep (LRun v) a); [exact X|exact X|]. cbn. subst. exact H.
Qed.
Lemma lrun_reached l v : lpolite_run lstart l -> lrun lstart l = LRun v -> LI v.
Proof. intros P E. pose proof (lrun_LI l lstart lstart_LI P) as X. rewrite E in X. exact X. Qed.

(** ** C86 *)
(** Every socket is given to one connection, released once, when that connection closed, and destroyed once after that. *)
Theorem C86_sockets_partial : forall l v k, lpolite_run lstart l -> lrun lstart l = LRun v -> (k < l_next v)%nat ->
  SocketLife k (story k (l_hist v)) /\
  (forall i, story k (l_hist v) = [OGive k i] <-> in_use (l_srv v) i = true /\ l_dev v i = Some k).
Proof.
  intros l v k P E Hk. pose proof (lrun_reached l v P E) as HV. split.
  - destruct (li_story _ HV k Hk) as [A|(x & [(A & _)|[(A & _)|A]])]; rewrite A; constructor.
  - intros i. split.
    + intros S. destruct (li_story _ HV k Hk) as [A|(x & [(A & B & C)|[(A & _)|A]])]; rewrite A in S; try discriminate. injection S as <-. auto.
    + intros [U D]. destruct (li_use _ HV i U) as (k' & D' & S). rewrite D in D'. injection D' as <-. exact S.
Qed.
(** The event loop destroys the released sockets: nothing is leaked while the server runs. *)
Theorem C86_no_leak_partial : forall l v, lpolite_run lstart l -> lrun lstart l = LRun v -> (forall i, ~ running (l_srv v) i) ->
  exists v', lrun lstart (l ++ [LLoop]) = LRun v' /\ forall k i, story k (l_hist v') <> [OGive k i; OLater k i].
Proof.
  intros l v P E NR. pose proof (lrun_reached l v P E) as HV. unfold lrun. rewrite fold_left_app. fold (lrun lstart l). rewrite E. cbn [fold_left lstep].
  pose proof (loop_LI v HV) as HL. rewrite (loop_eq v HV NR) in *. eexists. split; [reflexivity|]. intros k i S.
  assert (K : (k < l_next v)%nat). { destruct (Nat.lt_ge_cases k (l_next v)) as [|G]; auto. rewrite (li_new _ HL k G) in S. discriminate. }
  destruct (li_story _ HL k K) as [A|(x & [(A & _)|[(_ & [])|A]])]; rewrite S in A; discriminate.
Qed.
(** No socket is destroyed while a connection uses it, and nothing is destroyed twice: the only faults are those of the
    connections themselves (see C20, C21). *)
Theorem C86_no_fault_partial : forall l f, lpolite_run lstart l -> lrun lstart l = LFault f -> exists r, f = LServer (FConnection r).
Proof. intros l f P E. pose proof (lrun_LI l lstart lstart_LI P) as X. rewrite E in X. exact X. Qed.
(** When the server is deleted, every socket and every connection that ever existed has been destroyed exactly once. *)
Theorem C86_destroyed_partial : forall l v local, lpolite_run lstart l -> lrun lstart l = LRun v -> (forall i, ~ running (l_srv v) i) ->
  exists h, lrun lstart (l ++ [LDestroy local]) = LEnd v h /\
    (forall k, deaths (LS k) h = if (k <? l_next v)%nat then 1%nat else 0%nat) /\
    (forall i, deaths (LC i) h = if (i <? length (objs (l_srv v)))%nat then 1%nat else 0%nat).
Proof.
  intros l v local P E NR. pose proof (lrun_reached l v P E) as HV. unfold lrun. rewrite fold_left_app. fold (lrun lstart l). rewrite E. cbn [fold_left lstep].
  destruct (destroy_ok v local HV NR) as (h1 & -> & ->). eexists. split; [reflexivity|]. split.
  - intros k. rewrite (destroy_deaths v local (LS k) HV). pose proof (li_bornS _ HV k) as B.
    destruct (in_dec _ _ _), (Nat.ltb_spec k (l_next v)); auto; exfalso; [apply B in i; lia|tauto].
  - intros k. rewrite (destroy_deaths v local (LC k) HV). pose proof (li_bornC _ HV k) as B.
    destruct (in_dec _ _ _), (Nat.ltb_spec k (length (objs (l_srv v)))); auto; exfalso; [apply B in i; lia|tauto].
Qed.

(** While the server is deleted, a connection that is being served reports closed only if it is younger than its socket. *)
Definition older (o o' : lobj) (b : list lobj) : Prop := exists b1 b2, b = b1 ++ o :: b2 /\ In o' b2.
Lemma older_cons o o' x b : older o o' (x :: b) <-> (x = o /\ In o' b) \/ older o o' b.
Proof.
  unfold older. split.
  - intros ([|y b1] & b2 & E & H); cbn in E; injection E as -> ->; [left; auto|right; eauto].
  - intros [[-> H]|(b1 & b2 & -> & H)]; [exists [], b; auto|exists (x :: b1), b2; auto].
Qed.
Lemma deadb_app o h h' : deadb o (h ++ h') = deadb o h || deadb o h'.
Proof. unfold deadb. apply existsb_app. Qed.
Lemma deadb_parting o v o' h : deadb o (parting v o' h) = false.
Proof. apply deadb_none, deaths_parting. Qed.
Lemma deadb_one o o' : deadb o [ODead o'] = if lobj_eq_dec o o' then true else false.
Proof. unfold deadb. cbn. now destruct (lobj_eq_dec o o'). Qed.
Lemma drop_reports v i :
  (forall x k, l_dev v x = Some k -> reports v x = true /\ (x < length (objs (l_srv v)))%nat) ->
  (forall x y k, l_dev v x = Some k -> l_dev v y = Some k -> x = y) ->
  forall b h, NoDup b -> (forall x k, l_dev v x = Some k -> In (LC x) b \/ deadb (LC x) h = true) ->
  (In (OReport i) (dropChildren v b h) <->
   In (OReport i) h \/ exists k, l_dev v i = Some k /\ deadb (LC i) h = false /\ deadb (LS k) h = false /\ older (LS k) (LC i) b).
Proof.
  intros HR HU. induction b as [|o b IH]; intros h N A.
  - cbn [dropChildren]. split; [auto|]. intros [?|(k & _ & _ & _ & (b1 & b2 & E & _))]; auto. destruct b1; discriminate.
  - apply NoDup_cons_iff in N as [N1 N2]. cbn [dropChildren]. destruct (deadb o h) eqn:D.
    + rewrite IH; auto.
      * split; (intros [X|(k & X1 & X2 & X3 & X4)]; [now left|right; exists k; repeat (split; [assumption|])]).
        -- apply older_cons. now right.
        -- apply older_cons in X4 as [[-> _]|X4]; [congruence|exact X4].
      * intros x k E. destruct (A x k E) as [[->|X]|X]; auto.
    + set (h' := h ++ parting v o h ++ [ODead o]).
      assert (Dh : forall o', deadb o' h' = deadb o' h || (if lobj_eq_dec o' o then true else false)).
      { intros o'. unfold h'. now rewrite !deadb_app, deadb_parting, deadb_one. }
      assert (A' : forall x k, l_dev v x = Some k -> In (LC x) b \/ deadb (LC x) h' = true).
      { intros x k E. rewrite Dh. destruct (A x k E) as [[->|X]|X]; auto.
        - right. destruct (lobj_eq_dec (LC x) (LC x)); [apply Bool.orb_true_r|congruence].
        - right. now rewrite X. }
      rewrite (IH h' N2 A').
      assert (Rh : In (OReport i) h' <-> In (OReport i) h \/ In (OReport i) (parting v o h)).
      { unfold h'. rewrite !in_app_iff. cbn. intuition discriminate. }
      rewrite Rh. clear Rh IH.
      assert (Pt : In (OReport i) (parting v o h) <-> exists k, o = LS k /\ l_dev v i = Some k /\ deadb (LC i) h = false).
      { unfold parting. destruct o as [j|k].
        - split; [intros []|intros (k & E & _); discriminate].
        - destruct (find _ _) as [x|] eqn:F.
          + apply List.find_some in F as [F1 F2]. apply andb_true_iff in F2 as [F2 F3]. destruct (l_dev v x) as [k'|] eqn:Ex; [|discriminate].
            apply Nat.eqb_eq in F2. subst k'. rewrite (proj1 (HR x k Ex)). apply Bool.negb_true_iff in F3. cbn. split.
            * intros [E|[]]. injection E as ->. exists k. auto.
            * intros (k' & E & Ei & _). injection E as <-. left. f_equal. eauto.
          + split; [intros []|]. intros (k' & E & Ei & Di). injection E as <-.
            pose proof (List.find_none _ _ F i ltac:(apply in_seq; pose proof (proj2 (HR i k Ei)); lia)) as X. cbn beta in X.
            rewrite Ei, Nat.eqb_refl, Di in X. discriminate. }
      rewrite Pt. clear Pt. split.
      * intros [[X|(k & -> & X1 & X2)]|(k & X1 & X2 & X3 & X4)]; [now left| |].
        -- right. exists k. repeat (split; [assumption|]). apply older_cons. left. split; auto.
           destruct (A i k X1) as [[X|X]|X]; [discriminate|exact X|congruence].
        -- right. exists k. rewrite Dh in X2, X3. apply Bool.orb_false_iff in X2 as [X2 _], X3 as [X3 _]. repeat (split; [assumption|]).
           apply older_cons. now right.
      * intros [X|(k & X1 & X2 & X3 & X4)]; [now left; left|]. apply older_cons in X4 as [[-> X4]|X4].
        -- left. right. exists k. auto.
        -- destruct (lobj_eq_dec (LS k) o) as [<-|Nk]; [left; right; exists k; auto|].
           right. exists k. rewrite !Dh, X2, X3. split; [exact X1|].
           destruct (lobj_eq_dec (LC i) o) as [E|_].
           { exfalso. subst o. apply N1. destruct X4 as (b1 & b2 & -> & X4). apply in_app_iff. right. now right. }
           split; [reflexivity|]. destruct (lobj_eq_dec (LS k) o); [contradiction|]. split; [reflexivity|exact X4].
Qed.
Lemma in_use_reports v i : LI v -> (forall x, ~ running (l_srv v) x) -> in_use (l_srv v) i = true -> reports v i = true.
Proof.
  intros HV NR U. assert (Hi : (i < length (objs (l_srv v)))%nat) by (apply (si_range _ (li_si _ HV)); auto).
  destruct (si_obj _ (li_si _ HV) i Hi) as (c & stk & E & R & [[X _]|(_ & X & Ok)]); [congruence|]. unfold reports. rewrite E.
  assert (Z : stk = []) by (destruct stk as [|f t]; auto; exfalso; apply (NR i); exists c, f, t; exact E). subst stk.
  cbn [step do_op]. unfold toClosed. destruct (cst_eqb (st c) Closed) eqn:S.
  - apply cst_eqb_eq in S. destruct (C18_devices_released c [] R S) as [A _]; [intros []|congruence].
  - set (c1 := if in_ok (set_st Closed c) || _ then _ else _). change (closed_count (emit_log OClosed c1)) with (length (filter is_closed (log c1 ++ [OClosed]))).
    assert (L : closed_count c = 0%nat). { pose proof (count_in c) as Q. destruct (closed_count c); auto. exfalso. apply X, Q. lia. }
    rewrite L, filter_app, app_length. cbn [filter is_closed length]. apply Nat.ltb_lt. lia.
Qed.
Theorem C86_reports_partial : forall l v local v' h i, lpolite_run lstart (l ++ [LDestroy local]) -> lrun lstart l = LRun v ->
  lrun lstart (l ++ [LDestroy local]) = LEnd v' h ->
  (In (OReport i) h <-> in_use (l_srv v) i = true /\ exists k, l_dev v i = Some k /\ older (LS k) (LC i) (l_born v)).
Proof.
  intros l v local v' h i P E E'. assert (X : lpolite_run lstart l /\ lpolite v (LDestroy local) spolite).
  { clear E'. revert P E. generalize lstart. induction l as [|a l IH]; intros g P E.
    - cbn [lrun fold_left] in E. subst g. split; [exact Logic.I|apply P].
    - destruct P as [P1 P2]. destruct (IH _ P2 E) as [Q1 Q2]. split; [split; auto|exact Q2]. }
  destruct X as [P1 NR]. cbn [lpolite] in NR. pose proof (lrun_reached l v P1 E) as HV.
  unfold lrun in E'. rewrite fold_left_app in E'. fold (lrun lstart l) in E'. rewrite E in E'. cbn [fold_left lstep] in E'.
  destruct (destroy_ok v local HV NR) as (h1 & Eq & Eh). rewrite Eq in E'. injection E' as <- <-.
  assert (DU : forall x k, l_dev v x = Some k -> in_use (l_srv v) x = true) by (intros x k; now apply idle_no_device).
  assert (ND : forall x, in_use (l_srv v) x = true -> deadb (LC x) h1 = false).
  { intros x U. apply deadb_none. rewrite Eh, deaths_app, (li_dead _ HV). destruct (in_dec _ _ _) as [A|A]; [apply (si_gone _ (li_si _ HV)) in A; destruct A; congruence|].
    destruct local; [reflexivity|]. rewrite deaths_conns. apply count_occ_not_In. intros B. apply (si_where _ (li_si _ HV)) in B; [destruct B; congruence|]. apply (si_range _ (li_si _ HV)). auto. }
  rewrite drop_reports.
  - split.
    + intros [X|(k & X1 & _ & _ & X2)].
      * exfalso. rewrite Eh in X. apply in_app_iff in X as [X|X]; [eapply (li_norep _ HV); eauto|]. destruct local; [destruct X|].
        apply in_map_iff in X as (y & X & _). discriminate.
      * split; eauto.
    + intros (U & k & X1 & X2). right. exists k. split; auto. split; [auto|]. split; [|exact X2].
      apply deadb_none. rewrite Eh, deaths_app. destruct (li_use _ HV i U) as (k' & D & S). rewrite X1 in D. injection D as <-.
      rewrite deaths_story, S. destruct local; [reflexivity|]. now rewrite deaths_conns.
  - intros x k D. split; [apply in_use_reports; eauto|]. apply (si_range _ (li_si _ HV)). eauto.
  - intros x y k D1 D2. destruct (li_use _ HV x (DU _ _ D1)) as (k1 & E1 & S1), (li_use _ HV y (DU _ _ D2)) as (k2 & E2 & S2).
    rewrite D1 in E1. rewrite D2 in E2. injection E1 as <-. injection E2 as <-. congruence.
  - apply (li_nodup _ HV).
  - intros x k D. left. apply (li_bornC _ HV). apply (si_range _ (li_si _ HV)). eauto.
Qed.

(** ** A day in the life of a server *)
Definition lpoliteb (v : life) (a : laction) : bool :=
  match a with
  | LAccept true so data => spoliteb (l_srv v) (SAccept so data)
  | LAccept false _ _ => true
  | LConn i a => spoliteb (l_srv v) (SConn i a)
  | LLoop => true
  | LDestroy _ => negb (anyone_running (l_srv v))
  end.
Fixpoint lpoliteb_run (g : lcfg) (l : list laction) {struct l} : bool :=
  match l with
  | [] => true
  | a :: t => (match g with LRun v => lpoliteb v a | _ => true end) && lpoliteb_run (lstep g a) t
  end.
Lemma lpoliteb_run_ok l : forall g, lpoliteb_run g l = true -> lpolite_run g l.
Proof.
  induction l as [|a l IH]; intros g H; [exact Logic.I|]. cbn [lpoliteb_run] in H. apply andb_true_iff in H as (H1 & H2). split; [|now apply IH].
  destruct g as [v| |]; auto. destruct a as [[|] so data|i a| |local]; cbn [lpolite lpoliteb] in *; auto; try (now apply spoliteb_ok).
  apply Bool.negb_true_iff in H1. now apply anyone_none.
Qed.
Lemma lrun_facts l x : (match lrun lstart l with LRun v => Some (l_hist v, l_next v, length (objs (l_srv v)), anyone_running (l_srv v), map (l_dev v) (seq 0 27)) | _ => None end) = Some x ->
  exists v, lrun lstart l = LRun v /\ l_hist v = fst (fst (fst (fst x))) /\ l_next v = snd (fst (fst (fst x))) /\ length (objs (l_srv v)) = snd (fst (fst x)) /\
    anyone_running (l_srv v) = snd (fst x) /\ map (l_dev v) (seq 0 27) = snd x.
Proof. destruct (lrun lstart l) as [v| |]; [|discriminate|discriminate]. intros E. injection E as <-. exists v. cbn. auto 10. Qed.

Lemma lrun_app g l m : lrun g (l ++ m) = lrun (lrun g l) m.
Proof. apply fold_left_app. Qed.
Lemma lrun_one g a : lrun g [a] = lstep g a.
Proof. reflexivity. Qed.
Definition reported (h : list lobs) : list nat := flat_map (fun o => match o with OReport i => [i] | _ => [] end) h.
Lemma reported_In i h : In (OReport i) h <-> In i (reported h).
Proof.
  unfold reported. rewrite in_flat_map. split; [intros X; exists (OReport i); cbn; auto|].
  intros (o & X & Y). destruct o; cbn in Y; try tauto. destruct Y as [->|[]]. exact X.
Qed.
Lemma lend_facts l x : (match lrun lstart l with LEnd _ h => Some (reported h) | _ => None end) = Some x ->
  exists v h, lrun lstart l = LEnd v h /\ reported h = x.
Proof. destruct (lrun lstart l) as [| |v h]; [discriminate|discriminate|]. intros E. injection E as <-. eauto. Qed.

Definition lleave (i : nat) : list laction := [LConn i (ACall OpClose); LConn i AReturn].
(** 26 peers connect, with a failing descriptor in between; connection 3 is closed; the event loop runs; another peer comes *)
Definition lday : list laction :=
  repeat (LAccept true true text1) 2 ++ [LAccept false true []] ++ repeat (LAccept true true text1) 24 ++ lleave 3 ++ [LLoop; LAccept true true text1].
Example C86_case : lpolite_run lstart (lday ++ [LDestroy false]) /\ exists v, lrun lstart lday = LRun v /\ l_next v = 28%nat /\
  (forall i, ~ running (l_srv v) i) /\ story 2 (l_hist v) = [ODead (LS 2)] /\ story 0 (l_hist v) = [OGive 0 24] /\
  story 22 (l_hist v) = [OGive 22 3; OLater 22 3; ODead (LS 22)] /\ story 27 (l_hist v) = [OGive 27 3] /\
  exists v' h, lrun lstart (lday ++ [LDestroy false]) = LEnd v' h /\ In (OReport 25) h /\ ~ In (OReport 3) h /\ ~ In (OReport 24) h.
Proof.
  split; [apply lpoliteb_run_ok; vm_compute; reflexivity|].
  destruct (lrun_facts lday _ ltac:(vm_compute; reflexivity)) as (v & E & H & N & _ & A & _). exists v. cbn [fst snd] in *.
  split; [exact E|]. split; [exact N|]. split; [now apply anyone_none|]. rewrite H.
  split; [vm_compute; reflexivity|]. split; [vm_compute; reflexivity|]. split; [vm_compute; reflexivity|]. split; [vm_compute; reflexivity|].
  destruct (lend_facts (lday ++ [LDestroy false]) [25]%nat ltac:(vm_compute; reflexivity)) as (v' & h & E' & R).
  exists v', h. split; [exact E'|]. assert (RI : forall i, In (OReport i) h <-> In i [25]%nat) by (intros i; rewrite <- R; apply reported_In). clear R.
  split; [apply RI; now left|]. split; intros X; apply RI in X; destruct X as [X|[]]; discriminate.
Qed.

(** ** What does not hold *)
(** A user who counts connections by their closed signal: two peers are served, and deleting the server reports one of them. *)
Theorem C86_closed_at_end_refuted : exists l v v' h i j, lpolite_run lstart (l ++ [LDestroy false]) /\ lrun lstart l = LRun v /\
  lrun lstart (l ++ [LDestroy false]) = LEnd v' h /\ in_use (l_srv v) i = true /\ in_use (l_srv v) j = true /\ In (OReport i) h /\ ~ In (OReport j) h.
Proof.
  destruct C86_case as (P & v & E & N & NR & S2 & S0 & S22 & S27 & v' & h & E' & R & _ & R24).
  assert (P1 : lpolite_run lstart lday) by (apply lpoliteb_run_ok; vm_compute; reflexivity).
  exists lday, v, v', h, 25%nat, 24%nat. split; [exact P|]. split; [exact E|]. split; [exact E'|].
  split; [now apply (C86_reports_partial _ _ _ _ _ _ P E E')|]. split; [|now split].
  apply (C86_sockets_partial lday v 0 P1 E); [lia|exact S0].
Qed.
(** A peer that is accepted inside the closed signal of the connection it is given: its socket is never read, released or
    destroyed while the server lives. *)
Theorem C86_accept_in_closed_refuted : exists l v, lrun lstart l = LRun v /\ anyone_running (l_srv v) = false /\
  story 1 (l_hist v) = [OGive 1 24] /\ l_dev v 24 = None /\ exists v', lstep (LRun v) LLoop = LRun v' /\ story 1 (l_hist v') = [OGive 1 24].
Proof.
  set (l := [LAccept true true text1; LConn 24 (ACall OpClose); LAccept true true text1; LConn 24 AReturn; LConn 24 AReturn]).
  exists l. destruct (lrun_facts l _ ltac:(vm_compute; reflexivity)) as (v & E & H & N & _ & A & D). exists v. cbn [fst snd] in *.
  split; [exact E|]. split; [exact A|]. split; [rewrite H; vm_compute; reflexivity|].
  split; [change (l_dev v 24) with (nth 24 (map (l_dev v) (seq 0 27)) None); rewrite D; vm_compute; reflexivity|].
  assert (X : match lrun lstart (l ++ [LLoop]) with LRun v => story 1 (l_hist v) | _ => [] end = [OGive 1 24]) by (vm_compute; reflexivity).
  rewrite lrun_app, E, lrun_one in X.
  destruct (lstep (LRun v) LLoop) as [v'|f|v' h]; [|discriminate X|discriminate X]. exists v'. split; [reflexivity|exact X].
Qed.
