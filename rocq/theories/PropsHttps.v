(** PROPERTY C72: connections of an HttpsServer work on encrypted sockets.  Model: Https.v, Server.v. *)
From Verif Require Import Bytes ByteHelpers Thin Helpers ReqGrammar TextSpec Conn ConnSpec ConnInv ConnStep ConnIn ConnLog PropsConn Server PropsServer Https.
Open Scope Z_scope.

Section C72.
Variables (Key Cert : Type).
Notation haction := (haction Key Cert).
Notation hrun := (hrun Key Cert).
Notation https0 := (https0 Key Cert).

(** what a history says: the key and the certificate set last, the number of sockets accepted, the same history on a plain HttpServer *)
Definition last_key (l : list haction) : option Key := fold_left (fun k a => match a with HSetPrivateKey _ _ x => Some x | _ => k end) l None.
Definition last_cert (l : list haction) : option Cert := fold_left (fun k a => match a with HSetCertificate _ _ x => Some x | _ => k end) l None.
Definition is_accept (a : haction) : bool := match a with HIncoming _ _ ok => ok | _ => false end.
Definition accepts (l : list haction) : nat := length (filter is_accept l).
Definition plainly (l : list haction) : list saction :=
  concat (map (fun a => match a with HIncoming _ _ true => [SAccept true []] | HConn _ _ i x => [SConn i x] | _ => [] end) l).
Definition handed (h : list sobs) : list nat := concat (map (fun o => match o with SHanded i => [i] | _ => [] end) h).

Lemma hrun_snoc l a : hrun https0 (l ++ [a]) = hstep Key Cert (hrun https0 l) a.
Proof. unfold Https.hrun. rewrite fold_left_app. reflexivity. Qed.
Lemma srun_snoc g l a : srun g (l ++ [a]) = sstep (srun g l) a.
Proof. unfold srun. rewrite fold_left_app. reflexivity. Qed.
Lemma plainly_snoc l a : plainly (l ++ [a]) = plainly l ++ plainly [a].
Proof. unfold plainly. rewrite map_app, concat_app. reflexivity. Qed.

(** the connections are pooled and used as those of an HttpServer: everything proved about that (C44) holds *)
Theorem C72_pool : forall l, h_pool Key Cert (hrun https0 l) = srun sstart (plainly l).
Proof.
  induction l as [|a l IH] using rev_ind; [reflexivity|]. rewrite hrun_snoc, plainly_snoc.
  destruct a as [c|k|[|]|i x]; cbn [hstep h_pool plainly map concat app]; rewrite ?app_nil_r; auto.
  - rewrite srun_snoc, <- IH. destruct (h_pool Key Cert (hrun https0 l)) eqn:E; cbn [h_pool]; auto.
  - rewrite srun_snoc, <- IH. reflexivity.
Qed.

Definition inside (p : srv) : Prop := forall i, In i (pool p) -> (i < length (objs p))%nat.
Lemma fill_inside n : forall p, inside p -> inside (fill n p).
Proof.
  induction n as [|n IH]; intros p H; cbn [fill]; [exact H|]. unfold create. apply IH. intros i I. cbn [pool objs] in *. rewrite app_length. cbn [length].
  destruct I as [<-|I]; [lia|]. specialize (H i I). lia.
Qed.
Lemma put_inside i p : inside p -> (i < length (objs p))%nat -> inside (connection_closed i p).
Proof.
  intros H L j I. unfold connection_closed, putConnection in *. cbn [pool] in I. destruct (trim_spec (pool p)) as [E _]. cbn [pool objs gone hist] in *.
  destruct (trim (pool p)) as [k d]. cbn [pool objs fst snd] in *. destruct I as [<-|I]; [exact L|]. apply H. rewrite E, in_app_iff. auto.
Qed.
Lemma handed_app a b : handed (a ++ b) = handed a ++ handed b.
Proof. unfold handed. rewrite map_app, concat_app. reflexivity. Qed.
Lemma handed_deleted d : handed (map SDeleted d) = [].
Proof. induction d; auto. Qed.
Lemma conn_hist p i x p' : inside p -> sstep (SRun p) (SConn i x) = SRun p' -> inside p' /\ handed (hist p') = handed (hist p).
Proof.
  intros H E. cbn [sstep] in E. destruct (nth_error (objs p) i) as [[c stk|]|] eqn:N; try (injection E as <-; auto).
  assert (L : (i < length (objs p))%nat) by (apply nth_error_Some; congruence).
  assert (HS : forall g, inside (set_obj i g p)) by (intros g j I; unfold set_obj in *; cbn [pool objs] in *; rewrite len_set; auto).
  destruct (ingone i p).
  - destruct x; try discriminate; try (injection E as <-; auto). destruct stk; [injection E as <-; auto|discriminate].
  - destruct (step (Run c stk) x) as [c' stk'|]; [|discriminate]. cbv zeta in E. destruct (_ <? _)%nat.
    + destruct (in_ok c'); [|discriminate]. injection E as <-. split.
      * apply put_inside; [apply HS|unfold set_obj; cbn [objs]; rewrite len_set; exact L].
      * unfold connection_closed, putConnection, set_obj. cbn [pool objs gone hist]. destruct (trim (pool p)) as [k d]. cbn [hist].
        rewrite !handed_app, handed_deleted. cbn. rewrite !app_nil_r. reflexivity.
    + injection E as <-. split; [apply HS|reflexivity].
Qed.
Lemma accept_hist p p' : inside p -> sstep (SRun p) (SAccept true []) = SRun p' ->
  inside p' /\ handed (hist p') = handed (hist p) ++ [fst (takeConnection p)].
Proof.
  intros H E. cbn [sstep] in E.
  assert (T : inside (snd (takeConnection p)) /\ (fst (takeConnection p) < length (objs (snd (takeConnection p))))%nat /\ hist (snd (takeConnection p)) = hist p).
  { unfold takeConnection. destruct (pool p) as [|i t] eqn:Q; unfold create; cbn [fst snd objs hist].
    - rewrite app_length. cbn [length]. split; [|split; [lia|reflexivity]]. intros j I. cbn [pool objs] in *. rewrite Q in I. destruct I.
    - split; [|split; [apply H; rewrite Q; left; reflexivity|reflexivity]]. intros j I. cbn [pool objs] in *. apply H. rewrite Q. right. exact I. }
  destruct (takeConnection p) as [i q]. cbn [fst snd] in *. destruct T as (T1 & T2 & T3).
  destruct (nth_error (objs q) i) as [g|] eqn:N; [|apply nth_error_None in N; lia]. destruct (ingone i q); [discriminate|].
  destruct (step g _) as [c' stk'|]; [|discriminate]. injection E as <-. split.
  - intros j I. unfold set_obj in *. cbn [pool objs] in *. rewrite len_set. apply T1. exact I.
  - unfold set_obj. cbn [hist]. rewrite handed_app, T3. reflexivity.
Qed.

Lemma SRun_inj a b : SRun a = SRun b -> a = b.
Proof. congruence. Qed.
Definition good (l : list haction) : Prop :=
  h_key Key Cert (hrun https0 l) = last_key l /\ h_cert Key Cert (hrun https0 l) = last_cert l /\
  forall p, h_pool Key Cert (hrun https0 l) = SRun p ->
    inside p /\ handed (hist p) = List.rev (map fst (h_socks Key Cert (hrun https0 l))) /\ length (h_socks Key Cert (hrun https0 l)) = accepts l.
Lemma run_good l : good l.
Proof.
  induction l as [|a l (IK & IC & IP)] using rev_ind.
  - split; [reflexivity|]. split; [reflexivity|]. intros p E. cbn [Https.hrun fold_left https0 Https.https0 h_pool h_socks] in *. unfold sstart in E. apply SRun_inj in E. subst p. split; [|split; [vm_compute; reflexivity|reflexivity]].
    apply fill_inside. intros i I. destruct I.
  - unfold good. rewrite hrun_snoc. unfold last_key, last_cert, accepts in *. rewrite !fold_left_app, filter_app, app_length. cbn [fold_left].
    destruct a as [c|k|[|]|i x]; cbn [hstep filter is_accept length].
    + cbn [h_key h_cert h_pool h_socks]. rewrite Nat.add_0_r. auto.
    + cbn [h_key h_cert h_pool h_socks]. rewrite Nat.add_0_r. auto.
    + destruct (h_pool Key Cert (hrun https0 l)) as [p|f] eqn:Q; [|split; [exact IK|]; split; [exact IC|]; intros p E; congruence].
      cbn [h_key h_cert h_pool h_socks]. split; [exact IK|]. split; [exact IC|]. intros p' E. destruct (IP p eq_refl) as (A & B & C).
      destruct (accept_hist p p' A E) as [A' B']. split; [exact A'|]. cbn [map List.rev length fst]. rewrite B', B, C. split; [reflexivity|lia].
    + rewrite Nat.add_0_r. auto.
    + cbn [h_key h_cert h_pool h_socks]. split; [exact IK|]. split; [exact IC|]. rewrite Nat.add_0_r. intros p' E.
      destruct (h_pool Key Cert (hrun https0 l)) as [p|f]; [|discriminate]. destruct (IP p eq_refl) as (A & B & C).
      destruct (conn_hist p i x p' A E) as [A' B']. rewrite B'. auto.
Qed.
(** Every time a connection is given a socket, that socket was opened on the accepted descriptor and encryption was started on it, with the key and the
    certificate that were set last when the peer connected; the n-th connection handed out works on the n-th such socket. *)
Theorem C72_encrypted : forall l p l1 l2, h_pool Key Cert (hrun https0 l) = SRun p -> l = l1 ++ HIncoming Key Cert true :: l2 ->
  exists i, nth_error (handed (hist p)) (accepts l1) = Some i /\
    nth_error (List.rev (h_socks Key Cert (hrun https0 l))) (accepts l1) =
      Some (i, mkSsl Key Cert true (last_key l1) (last_cert l1) (Some (last_key l1, last_cert l1))).
Proof.
  intros l p l1 l2 E ->. revert p E. induction l2 as [|a l2 IH] using rev_ind; intros p E.
  - destruct (run_good l1) as (IK & IC & IP). destruct (run_good (l1 ++ [HIncoming Key Cert true])) as (_ & _ & IP').
    destruct (IP' p E) as (_ & B & _). rewrite B. rewrite hrun_snoc in *. cbn [hstep] in *.
    destruct (h_pool Key Cert (hrun https0 l1)) as [q|f] eqn:Q; [|rewrite Q in E; discriminate]. destruct (IP q eq_refl) as (_ & _ & C).
    cbn [h_socks map List.rev fst] in *. exists (fst (takeConnection q)).
    assert (X : forall A (x : list A) y n, length x = n -> nth_error (List.rev x ++ [y]) n = Some y).
    { intros A x y n L. rewrite nth_error_app2 by (rewrite rev_length; lia). rewrite rev_length, L, Nat.sub_diag. reflexivity. }
    split; [apply X; now rewrite map_length|]. rewrite X by exact C. unfold startServerEncryption, setLocalCertificate, setPrivateKey, setSocketDescriptor. cbn [ss_open ss_key ss_cert ss_tls].
    rewrite IK, IC. reflexivity.
  - assert (Pr : exists q, h_pool Key Cert (hrun https0 (l1 ++ HIncoming Key Cert true :: l2)) = SRun q /\
        (exists h, handed (hist p) = handed (hist q) ++ h) /\
        exists s, List.rev (h_socks Key Cert (hrun https0 ((l1 ++ HIncoming Key Cert true :: l2) ++ [a]))) = List.rev (h_socks Key Cert (hrun https0 (l1 ++ HIncoming Key Cert true :: l2))) ++ s).
    { change (l1 ++ HIncoming Key Cert true :: l2 ++ [a]) with (l1 ++ (HIncoming Key Cert true :: l2) ++ [a]) in E. rewrite app_assoc in E.
      set (l := l1 ++ HIncoming Key Cert true :: l2) in *. destruct (run_good l) as (_ & _ & IP). rewrite hrun_snoc in *.
      destruct a as [c|k|[|]|i x]; cbn [hstep] in *.
      - cbn [h_pool h_socks] in *. exists p. split; [exact E|]. split; exists []; now rewrite app_nil_r.
      - cbn [h_pool h_socks] in *. exists p. split; [exact E|]. split; exists []; now rewrite app_nil_r.
      - destruct (h_pool Key Cert (hrun https0 l)) as [q|f] eqn:Q; [|rewrite Q in E; discriminate]. cbn [h_pool h_socks] in *. exists q. split; [reflexivity|].
        destruct (IP q eq_refl) as (A & _ & _). destruct (accept_hist q p A E) as [_ B]. split; [rewrite B; eexists; reflexivity|]. cbn [List.rev]. eexists. reflexivity.
      - exists p. split; [exact E|]. split; exists []; now rewrite app_nil_r.
      - cbn [h_pool h_socks] in *. destruct (h_pool Key Cert (hrun https0 l)) as [q|f] eqn:Q; [|discriminate]. exists q. split; [reflexivity|].
        destruct (IP q eq_refl) as (A & _ & _). destruct (conn_hist q i x p A E) as [_ B]. rewrite B. split; exists []; now rewrite app_nil_r. }
    destruct Pr as (q & Eq & [h Hh] & [s Hs]). destruct (IH q Eq) as (i & I1 & I2). exists i.
    change (l1 ++ HIncoming Key Cert true :: l2 ++ [a]) with (l1 ++ (HIncoming Key Cert true :: l2) ++ [a]). rewrite app_assoc, Hs, Hh.
    split; (rewrite nth_error_app1; [assumption|apply nth_error_Some; congruence]).
Qed.
(** and no connection is handed out otherwise *)
Theorem C72_only : forall l p, h_pool Key Cert (hrun https0 l) = SRun p -> length (handed (hist p)) = accepts l.
Proof. intros l p E. destruct (run_good l) as (_ & _ & IP). destruct (IP p E) as (_ & B & C). rewrite B, rev_length, map_length. exact C. Qed.
End C72.

(** a case: the certificate is replaced between two peers; a third one cannot be accepted *)
Definition tls_day : list (haction nat nat) :=
  [HSetPrivateKey _ _ 1%nat; HSetCertificate _ _ 2%nat; HIncoming _ _ true; HSetCertificate _ _ 3%nat; HIncoming _ _ false; HIncoming _ _ true; HConn _ _ 24 (ACall OpClose)].
Example C72_case : exists p, h_pool nat nat (Https.hrun nat nat (Https.https0 nat nat) tls_day) = SRun p /\
  h_socks nat nat (Https.hrun nat nat (Https.https0 nat nat) tls_day) =
    [(23%nat, mkSsl nat nat true (Some 1%nat) (Some 3%nat) (Some (Some 1%nat, Some 3%nat))); (24%nat, mkSsl nat nat true (Some 1%nat) (Some 2%nat) (Some (Some 1%nat, Some 2%nat)))].
Proof.
  assert (X : match h_pool nat nat (Https.hrun nat nat (Https.https0 nat nat) tls_day) with SRun _ => true | SFault _ => false end = true) by (vm_compute; reflexivity).
  destruct (h_pool nat nat (Https.hrun nat nat (Https.https0 nat nat) tls_day)) as [p|f]; [|discriminate]. exists p. split; [reflexivity|]. vm_compute. reflexivity.
Qed.
