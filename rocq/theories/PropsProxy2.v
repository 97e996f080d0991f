(** C55, C56: samples and counterexamples; C61: the request a proxy sends. *)
From Verif Require Import Bytes ByteHelpers Thin Helpers ReqGrammar TextSpec ThinProofs ThinFields ThinTop CIProofs HelpersProofs
  Conn ConnSpec ConnView ConnText ConnHead ConnInv ConnStep ConnEnd ConnLog PropsParser PropsConn ConnSend ConnFree PropsConn2 PropsConn3 PropsConn4 Proxy ProxyInv PropsProxy
  RespParser RespSpec PropsResp2.
From Coq Require Import Permutation.
Open Scope Z_scope.

(** a pipe for the sample request of ready1 (PropsConn2.v) *)
Definition px1 : cfg * pipe := (Run ready1 [KSig SReady], pipe0).
Definition plog (l : list pevent) : list obs := skipn (length (log ready1)) (log (gconn (fst (prun px1 l)))).
Definition len5 : pevent := PxMeta 200 [(lit "Content-Length", lit "5")].
Definition relay5 : list pevent := [len5; PxData (lit "hel"); PxRead; PxOther (AKernel 3); PxData (lit "lo"); PxRead].
Definition head5 : bytes := lit "HTTP/1.1 200 OK" ++ CRLF ++ lit "Content-Length: 5" ++ CRLF ++ lit "Content-Type: text/plain" ++ CRLF ++ CRLF.
Ltac fair_now := cbn [fair fair_event]; repeat match goal with |- _ /\ _ => split end; match goal with |- True => exact Logic.I | |- int_length _ _ _ => apply int_length_b; vm_compute; reflexivity | |- _ => intros _; reflexivity end.
Example C55_case : reached ready1 [KSig SReady] /\ Forall no_content [KSig SReady] /\ st ready1 = SendingHeaders /\ current ready1 (delivered msg1) /\
  fair px1 relay5 /\ plog relay5 = [OWrite head5; OWrite (lit "hel"); OWrite (lit "lo"); OCompleted].
Proof.
  destruct ready1_facts. split; [apply ready1_reached|]. split; [repeat constructor|]. split; [assumption|]. split; [assumption|]. split; [|vm_compute; reflexivity].
  unfold relay5, len5. fair_now.
Qed.
(** a failure before anything was relayed *)
Example C55_unavailable_case : fair px1 [PxFinished true] /\ exists hd, plog [PxFinished true] = [OWrite hd; OCompleted] /\ firstn 12 hd = lit "HTTP/1.1 503".
Proof. split; [fair_now|]. eexists. split; vm_compute; reflexivity. Qed.

(** Counterexamples to "the upstream content in order".  A piece that exceeds the announced length is dropped as a whole, and
    a later one that fits is still sent: the client gets a complete response with the content "abcdh". *)
Theorem C55_overshoot_refuted : exists l, fair px1 l /\ all_data l = lit "abcdefgh" /\
  plog l = [OWrite head5; OWrite (lit "abcd"); OWrite (lit "h"); OCompleted].
Proof. exists [len5; PxData (lit "abcd"); PxRead; PxData (lit "efg"); PxRead; PxData (lit "h"); PxRead]. split; [unfold len5; fair_now|]. split; vm_compute; reflexivity. Qed.
(** "if the upstream fails before any header": QNetworkReply reports every status from 400 on as an error.  Without
    content there is no readyRead(), so the upstream status is replaced by 503. *)
Theorem C55_error_status_refuted : exists l hd, fair px1 l /\ last_meta (0, []) l = (404, [(lit "Content-Length", lit "0")]) /\
  plog l = [OWrite hd; OCompleted] /\ firstn 12 hd = lit "HTTP/1.1 503".
Proof. eexists [PxMeta 404 [(lit "Content-Length", lit "0")]; PxFinished true], _. split; [fair_now|]. split; [reflexivity|]. split; vm_compute; reflexivity. Qed.

(** closed by the end of the upstream answer, without announced length *)
Definition relay_close : list pevent := [PxMeta 200 [(lit "X-Y", lit "z")]; PxData (lit "hel"); PxRead; PxData (lit "lo"); PxRead].
Example C56_case : fair px1 relay_close /\ pp_broken (snd (prun px1 relay_close)) = false /\ pp_broken (snd (prun px1 (relay_close ++ [PxFinished false]))) = true /\
  exists hd q, plog (relay_close ++ [PxFinished false]) = [OWrite hd; OWrite (lit "hel"); OWrite (lit "lo"); OShut q; OClosed].
Proof. split; [unfold relay_close; fair_now|]. split; [vm_compute; reflexivity|]. split; [vm_compute; reflexivity|]. eexists _, _. vm_compute. reflexivity. Qed.
(** A chunked upstream answer is relayed as chunks, and the connection closed without the terminating chunk: a client sees a
    truncated response (here, the response parser of this library: an error at the end of the stream). *)
Definition relay_chunked : list pevent := [PxMeta 200 [(lit "Transfer-Encoding", lit "chunked")]; PxData (lit "hello"); PxRead; PxFinished false].
Theorem C56_chunked_refuted : fair px1 relay_chunked /\ exists hd q p n p', plog relay_chunked = [OWrite hd; OWrite (lit "5" ++ CRLF); OWrite (lit "hello"); OWrite CRLF; OShut q; OClosed] /\
  inject rfresh (written (plog relay_chunked)) = Some (p, n) /\ ~ In RComplete (r_log p) /\ injectEof p = Some p' /\ ~ In RComplete (r_log p') /\ hasError p' = true.
Proof.
  split; [unfold relay_chunked; fair_now|]. eexists _, _, _, _, _. split; [vm_compute; reflexivity|]. split; [vm_compute; reflexivity|].
  split; [vm_compute; intuition discriminate|]. split; [vm_compute; reflexivity|]. split; [vm_compute; intuition discriminate|vm_compute; reflexivity].
Qed.
(** "when it fails after the head was sent, the client connection is closed": nothing happens at all, whatever the history *)
Theorem C56_late_error_refuted : (forall c stk r l c' stk' p, reached c stk -> Forall no_content stk -> st c = SendingHeaders -> current c r ->
    fair (Run c stk, pipe0) l -> prun (Run c stk, pipe0) l = (Run c' stk', p) -> pp_broken p = false -> st c' = SendingContent ->
    prun (Run c stk, pipe0) (l ++ [PxFinished true]) = (Run c' stk', p)) /\
  exists l, fair px1 l /\ plog (l ++ [PxFinished true]) = [OWrite head5; OWrite (lit "abc")] /\
    pp_broken (snd (prun px1 l)) = false /\ gstate (fst (prun px1 (l ++ [PxFinished true]))) = SendingContent.
Proof.
  split.
  - intros c stk r l c' stk' p _ _ _ _ _ E B S. rewrite prun_snoc, E. cbn [pstep]. rewrite B. unfold pipe_finished. cbn [negb gstate]. rewrite S. cbn [cst_eqb]. now rewrite andb_false_r.
  - exists [len5; PxData (lit "abc"); PxRead]. split; [unfold len5; fair_now|]. vm_compute. auto.
Qed.
(** likewise when the upstream reply is destroyed: the connection is left as it is, for good *)
Theorem C56_destroyed_refuted : (forall g p l, fst (prun (g, p) (PxGone :: l)) = fold_left step (others l) g) /\
  exists l, fair px1 l /\ gstate (fst (prun px1 (l ++ [PxGone]))) = SendingContent.
Proof.
  split.
  - intros g p l. destruct (broken_run l g (teardown p) eq_refl) as (p' & E & _). change (prun (g, p) (PxGone :: l)) with (prun (g, teardown p) l). now rewrite E.
  - exists [len5; PxData (lit "abc"); PxRead]. split; [unfold len5; fair_now|]. vm_compute. reflexivity.
Qed.

(** ** C61: the request sent upstream *)
(** specification: the last header of each name *)
Definition same_name (name : bytes) (h : header) : bool := beqb (lower (fst h)) (lower name).
Definition last_of (name : bytes) (hs : list header) : list header :=
  match List.rev (filter (same_name name) hs) with [] => [] | h :: _ => [h] end.
Definition or_configured (part : bytes) : option bytes := if beqb part [] then None else Some part.

Lemma setRaw_named name h hs : filter (same_name name) (setRawHeader h hs) = if same_name name h then [h] else filter (same_name name) hs.
Proof.
  unfold setRawHeader. rewrite filter_app. cbn [filter]. destruct (same_name name h) eqn:E.
  - replace (filter (same_name name) _) with (@nil header); [reflexivity|]. symmetry. induction hs as [|x hs IH]; auto. cbn [filter].
    destruct (negb _) eqn:N; auto. cbn [filter]. destruct (same_name name x) eqn:X; auto. unfold same_name in *. apply beqb_true in E, X. rewrite X, <- E in N. now rewrite beqb_refl in N.
  - rewrite app_nil_r. induction hs as [|x hs IH]; auto. cbn [filter]. destruct (negb _) eqn:N; cbn [filter]; rewrite IH; auto.
    destruct (same_name name x) eqn:X; auto. unfold same_name in *. apply negb_false_iff, beqb_true in N. apply beqb_true in X. rewrite N in X. rewrite X, beqb_refl in E. discriminate.
Qed.
Theorem C61_request : forall r, exists px, proxyHandle true r = Some px /\
  px_method px = q_method r /\ px_path px = q_path r /\ px_query px = or_configured (q_query r) /\ px_fragment px = or_configured (q_fragment r) /\
  px_content px = or_configured (q_content r) /\
  (forall name, filter (same_name name) (px_headers px) = last_of name (q_headers r)).
Proof.
  intros r. eexists. split; [reflexivity|]. cbn [px_method px_path px_query px_fragment px_content px_headers]. split; [auto|]. split; [auto|].
  assert (S : forall b, some_bytes b = or_configured b) by (intros []; reflexivity). rewrite !S. split; [auto|]. split; [auto|]. split; [auto|].
  intros name. induction (q_headers r) as [|h hs IH] using List.rev_ind; [reflexivity|]. rewrite fold_left_app. cbn [fold_left]. rewrite setRaw_named.
  unfold last_of. rewrite filter_app. cbn [filter]. destruct (same_name name h); [now rewrite rev_unit|]. rewrite app_nil_r, IH. reflexivity.
Qed.
(** "with the same headers": repeated headers are lost *)
Definition cookies : request := mkReq (lit "GET") (lit "/") (lit "/") [] [] (lit "HTTP/1.1") [(lit "Accept", lit "text/html"); (lit "Host", lit "h"); (lit "accept", lit "text/plain")] [].
Theorem C61_repeated_refuted : exists px, proxyHandle true cookies = Some px /\ px_headers px = [(lit "Host", lit "h"); (lit "accept", lit "text/plain")].
Proof. eexists. split; vm_compute; reflexivity. Qed.

(** ** C62: requests never queue behind six others *)
(** specification: the requests under way after a history *)
Fixpoint underway (n : nat) (live : list nat) (l : list elastic_event) : list nat :=
  match l with
  | [] => live
  | EPut :: t => underway (S n) (live ++ [n]) t
  | EDrop x :: t => underway n (filter (fun y => negb (Nat.eqb y x)) live) t
  end.
Lemma put_small n ms : Forall (fun m => (length m <= 6)%nat) ms -> Forall (fun m => (length m <= 6)%nat) (elastic_put n ms).
Proof.
  induction 1 as [|m t Hm Ht IH]; cbn [elastic_put]; [repeat constructor|]. destruct (Nat.ltb_spec (length m) 6); constructor; auto. rewrite app_length. cbn. lia.
Qed.
Lemma put_perm n ms : Permutation (concat (elastic_put n ms)) (concat ms ++ [n]).
Proof.
  induction ms as [|m t IH]; cbn [elastic_put concat]; [apply Permutation_refl|]. destruct (Nat.ltb (length m) 6); cbn [concat].
  - rewrite <- !app_assoc. apply Permutation_app_head. apply Permutation_app_comm.
  - rewrite <- app_assoc. now apply Permutation_app_head.
Qed.
Lemma drop_concat n ms : concat (elastic_drop n ms) = filter (fun x => negb (Nat.eqb x n)) (concat ms).
Proof. unfold elastic_drop. induction ms as [|m t IH]; auto. cbn [map concat]. now rewrite IH, filter_app. Qed.
Lemma filter_le {A} f (l : list A) : (length (filter f l) <= length l)%nat.
Proof. induction l as [|x l IH]; cbn; auto. destruct (f x); cbn; lia. Qed.
Lemma filter_perm {A} f (a b : list A) : Permutation a b -> Permutation (filter f a) (filter f b).
Proof. induction 1; cbn; auto; [destruct (f x); auto|destruct (f x), (f y); auto; apply perm_swap|eapply Permutation_trans; eauto]. Qed.
Lemma elastic_inv l : forall n ms live, Permutation (concat ms) live -> Forall (fun m => (length m <= 6)%nat) ms ->
  Permutation (concat (snd (fold_left elastic_step l (n, ms)))) (underway n live l) /\ Forall (fun m => (length m <= 6)%nat) (snd (fold_left elastic_step l (n, ms))).
Proof.
  induction l as [|[|x] l IH]; intros n ms live P H; cbn [fold_left underway elastic_step fst snd]; auto.
  - apply IH; [|now apply put_small]. eapply Permutation_trans; [apply put_perm|]. now apply Permutation_app_tail.
  - apply IH; [rewrite drop_concat; now apply filter_perm|]. clear -H. induction H as [|m t Hm Ht IH]; constructor; auto. cbn beta. etransitivity; [apply filter_le|exact Hm].
Qed.
(** every request under way is with exactly one child manager, and no child manager has more than six *)
Theorem C62_elastic : forall l, Permutation (concat (snd (elastic_run l))) (underway 0 [] l) /\ Forall (fun m => (length m <= 6)%nat) (snd (elastic_run l)).
Proof. intros l. apply elastic_inv; constructor. Qed.
(** a new manager is only made when all others are full *)
Theorem C62_spawn : forall n ms, length (elastic_put n ms) = length ms \/ (length (elastic_put n ms) = S (length ms) /\ Forall (fun m => (6 <= length m)%nat) ms).
Proof.
  intros n ms. induction ms as [|m t IH]; cbn [elastic_put]; [right; auto|]. destruct (Nat.ltb_spec (length m) 6); [left; reflexivity|].
  destruct IH as [E|[E F]]; [left|right]; cbn [length]; rewrite E; auto.
Qed.
Example C62_case : elastic_run (repeat EPut 7 ++ [EDrop 2; EPut]) = (8%nat, [[0; 1; 3; 4; 5; 7]; [6]]%nat).
Proof. reflexivity. Qed.
