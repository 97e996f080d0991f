(** Header names and words as the response parser recognises them. *)
From Verif Require Import Bytes TextSpec Joyent RespParser RespInv RespSpec.
Open Scope Z_scope.

Lemma beqb_cons a x b y : beqb (a :: x) (b :: y) = Ascii.eqb a b && beqb x y.
Proof.
  unfold beqb. destruct (list_eq_dec ascii_dec (a :: x) (b :: y)) as [E|E], (list_eq_dec ascii_dec x y) as [F|F];
  destruct (Ascii.eqb_spec a b); cbn; try congruence; subst; congruence.
Qed.
Lemma beqb_nil_cons b y : beqb [] (b :: y) = false.
Proof. unfold beqb. destruct (list_eq_dec ascii_dec [] (b :: y)); congruence. Qed.
Lemma beqb_cons_nil b y : beqb (b :: y) [] = false.
Proof. unfold beqb. destruct (list_eq_dec ascii_dec (b :: y) []); congruence. Qed.
Lemma beqb_nil : beqb [] [] = true.
Proof. reflexivity. Qed.

Inductive kind := KConn | KLen | KTE | KUpg | KOther.
Definition kind_hs (hs : hstate) : kind :=
  match hs with
  | h_connection => KConn | h_content_length => KLen | h_transfer_encoding => KTE | h_upgrade => KUpg
  | _ => KOther
  end.
Definition kind_name (s : bytes) : kind :=
  if beqb s (lit "connection") || beqb s (lit "proxy-connection") then KConn
  else if beqb s (lit "content-length") then KLen
  else if beqb s (lit "transfer-encoding") then KTE
  else if beqb s (lit "upgrade") then KUpg
  else KOther.

Fixpoint ffold (hs : hstate) (idx : nat) (s : bytes) {struct s} : option (hstate * nat) :=
  match s with
  | [] => Some (hs, idx)
  | c :: s' => match field_step hs idx c with Some (hs', idx') => ffold hs' idx' s' | None => None end
  end.

Definition nosp (s : bytes) : Prop := forall c, In c s -> c <> SP.
Lemma nosp_cons c s : nosp (c :: s) -> c <> SP /\ nosp s.
Proof. unfold nosp. intros H. split; [apply H; now left|intros x Hx; apply H; now right]. Qed.

Lemma ffold_general s : forall i, ffold h_general i s = Some (h_general, i).
Proof. induction s; intros; cbn; auto. Qed.

Lemma skipn_nth {A} (d : A) : forall i (w : list A), (i < length w)%nat -> skipn i w = nth i w d :: skipn (S i) w.
Proof. induction i; intros [|x w] H; cbn in *; try lia; auto. apply IHi. lia. Qed.

Lemma mw_run w done hs :
  (forall idx c, field_step hs idx c = Some (match_word w done c hs idx)) ->
  (forall idx c, c <> SP -> field_step done idx c = Some (h_general, idx)) ->
  kind_hs hs = KOther -> 
  forall s i, (S i < length (lit w))%nat -> nosp s -> exists hs' idx', ffold hs i s = Some (hs', idx') /\
    kind_hs hs' = if beqb s (skipn (S i) (lit w)) then kind_hs done else KOther.
Proof.
  intros F1 F2 K. induction s as [|c s IH]; intros i Hi N.
  - exists hs, i. split; auto. rewrite (skipn_nth NUL) by lia. rewrite beqb_nil_cons. auto.
  - apply nosp_cons in N as [Nc N]. cbn [ffold]. rewrite F1. unfold match_word.
    rewrite (skipn_nth NUL (S i)) by lia. rewrite beqb_cons.
    replace (length (lit w) <? S i)%nat with false by (symmetry; apply Nat.ltb_ge; lia). cbn [orb].
    unfold ceq. destruct (Ascii.eqb c (nth (S i) (lit w) NUL)) eqn:E; cbn [negb andb].
    + destruct (S i =? length (lit w) - 1)%nat eqn:L.
      * apply Nat.eqb_eq in L. rewrite (skipn_all2 (n := S (S i))) by lia.
        destruct s as [|c2 s].
        -- exists done, (S i). cbn [ffold]. split; auto.
        -- apply nosp_cons in N as [Nc2 N]. rewrite beqb_cons_nil. cbn [ffold]. rewrite F2 by auto. rewrite ffold_general. eauto.
      * apply Nat.eqb_neq in L. apply IH; auto. lia.
    + rewrite ffold_general. eauto.
Qed.

Lemma name_kind c s : nosp (c :: s) -> exists hs idx, ffold (field_first c) 0 s = Some (hs, idx) /\
  kind_hs hs = kind_name (c :: s).
Proof.
  intros N. apply nosp_cons in N as [Nc N]. unfold field_first, kind_name, ceq.
  change (lit "connection") with ("c"%char :: lit "onnection"). change (lit "proxy-connection") with ("p"%char :: lit "roxy-connection").
  change (lit "content-length") with ("c"%char :: lit "ontent-length"). change (lit "transfer-encoding") with ("t"%char :: lit "ransfer-encoding").
  change (lit "upgrade") with ("u"%char :: lit "pgrade"). rewrite !beqb_cons.
  assert (G : exists hs idx, ffold h_general 0 s = Some (hs, idx) /\ kind_hs hs = KOther) by (rewrite ffold_general; eauto).
  destruct (Ascii.eqb_spec c "c") as [->|N1]; [|destruct (Ascii.eqb_spec c "p") as [->|N2]; [|destruct (Ascii.eqb_spec c "t") as [->|N3];
    [|destruct (Ascii.eqb_spec c "u") as [->|N4]]]]; cbn [andb orb Ascii.eqb Bool.eqb]; auto.
  - rewrite ?andb_false_r, ?orb_false_r.
    destruct s as [|c1 s]; [exists h_C, 0%nat; split; reflexivity|].
    apply nosp_cons in N as [Nc1 N]. cbn [ffold field_step]. unfold ceq.
    change (lit "onnection") with ("o"%char :: lit "nnection"). change (lit "ontent-length") with ("o"%char :: lit "ntent-length"). rewrite !beqb_cons.
    destruct (Ascii.eqb c1 "o"); cbn [andb]; [|rewrite ffold_general; eauto].
    destruct s as [|c2 s]; [exists h_CO, 1%nat; split; reflexivity|].
    apply nosp_cons in N as [Nc2 N]. cbn [ffold field_step]. unfold ceq.
    change (lit "nnection") with ("n"%char :: lit "nection"). change (lit "ntent-length") with ("n"%char :: lit "tent-length"). rewrite !beqb_cons.
    destruct (Ascii.eqb c2 "n"); cbn [andb]; [|rewrite ffold_general; eauto].
    destruct s as [|c3 s]; [exists h_CON, 2%nat; split; reflexivity|].
    apply nosp_cons in N as [Nc3 N]. cbn [ffold field_step]. unfold ceq.
    change (lit "nection") with ("n"%char :: lit "ection"). change (lit "tent-length") with ("t"%char :: lit "ent-length"). rewrite !beqb_cons.
    destruct (Ascii.eqb_spec c3 "n") as [->|N4]; cbn [andb].
    + destruct (mw_run "connection" h_connection h_matching_connection) with (s := s) (i := 3%nat) as (hs & idx & E & Kd); auto; try (cbn; lia).
      { intros. cbn [field_step]. unfold ceq. destruct (Ascii.eqb_spec c SP); [congruence|reflexivity]. }
      exists hs, idx. split; auto.
    + destruct (Ascii.eqb c3 "t"); cbn [andb]; [|rewrite ffold_general; eauto].
      destruct (mw_run "content-length" h_content_length h_matching_content_length) with (s := s) (i := 3%nat) as (hs & idx & E & Kd); auto; try (cbn; lia).
      { intros. cbn [field_step]. unfold ceq. destruct (Ascii.eqb_spec c SP); [congruence|reflexivity]. }
      exists hs, idx. split; auto.
  - destruct (mw_run "proxy-connection" h_connection h_matching_proxy_connection) with (s := s) (i := 0%nat) as (hs & idx & E & Kd); auto; try (cbn; lia).
    { intros. cbn [field_step]. unfold ceq. destruct (Ascii.eqb_spec c SP); [congruence|reflexivity]. }
    exists hs, idx. split; auto.
  - destruct (mw_run "transfer-encoding" h_transfer_encoding h_matching_transfer_encoding) with (s := s) (i := 0%nat) as (hs & idx & E & Kd); auto; try (cbn; lia).
    { intros. cbn [field_step]. unfold ceq. destruct (Ascii.eqb_spec c SP); [congruence|reflexivity]. }
    exists hs, idx. split; auto.
  - destruct (mw_run "upgrade" h_upgrade h_matching_upgrade) with (s := s) (i := 0%nat) as (hs & idx & E & Kd); auto; try (cbn; lia).
    { intros. cbn [field_step]. unfold ceq. destruct (Ascii.eqb_spec c SP); [congruence|reflexivity]. }
    exists hs, idx. split; auto.
Qed.

(** bytes *)
Lemma token_lower c : tchar c = true -> TOKEN c = Some (to_lower c) /\ to_lower c <> SP.
Proof.
  revert c. assert (H : forallb (fun c => implb (tchar c) (match TOKEN c with Some x => Ascii.eqb x (to_lower c) && negb (Ascii.eqb x SP) | None => false end)) all_bytes = true) by (vm_compute; reflexivity).
  intros c T. pose proof (forall_bytes (fun c => implb (tchar c) (match TOKEN c with Some x => Ascii.eqb x (to_lower c) && negb (Ascii.eqb x SP) | None => false end)) H c) as G.
  cbn beta in G. rewrite T in G. cbn [implb] in G. destruct (TOKEN c) as [x|]; [|discriminate].
  apply andb_prop in G as [G1 G2]. apply Ascii.eqb_eq in G1. subst x. split; auto. destruct (Ascii.eqb_spec (to_lower c) SP); [discriminate|auto].
Qed.
Lemma not_token c : mem c [":"; SP; CR; LF]%char = true -> TOKEN c = None.
Proof.
  intros M. pose proof (forall_bytes (fun c => implb (mem c [":"; SP; CR; LF]%char) (match TOKEN c with Some _ => false | None => true end)) ltac:(vm_compute; reflexivity) c) as G.
  cbn beta in G. rewrite M in G. cbn in G. destruct (TOKEN c); congruence.
Qed.
Lemma LOWER_lower c x : mem x (lit "chunkedp-alivos") = true -> c <> CR -> Ascii.eqb (LOWER c) x = Ascii.eqb (to_lower c) x.
Proof.
  intros M N. pose proof (forall_bytes (fun c => forallb (fun x => implb (negb (Ascii.eqb c CR)) (Bool.eqb (Ascii.eqb (LOWER c) x) (Ascii.eqb (to_lower c) x))) (lit "chunkedp-alivos")) ltac:(vm_compute; reflexivity) c) as G.
  cbn beta in G. rewrite forallb_forall in G. specialize (G x). apply existsb_exists in M as (y & My & E). apply Ascii.eqb_eq in E. subst y.
  specialize (G My). destruct (Ascii.eqb_spec c CR); [congruence|]. cbn in G. apply eqb_prop in G. auto.
Qed.

(** ** Words *)
Fixpoint vfold (h : hparser) (v : bytes) {struct v} : vres :=
  match v with
  | [] => VOk h
  | c :: v' => match value_step c h with VOk h' => vfold h' v' | VBad => VBad | VAssert => VAssert end
  end.
Lemma vfold_general v : forall h, h_hs h = h_general -> vfold h v = VOk h.
Proof. induction v as [|c v IH]; intros h E; cbn; auto. unfold value_step. rewrite E. auto. Qed.

Definition word_of (hs : hstate) : option (string * hstate) :=
  match hs with
  | h_matching_transfer_encoding_chunked => Some ("chunked"%string, h_transfer_encoding_chunked)
  | h_matching_connection_keep_alive => Some ("keep-alive"%string, h_connection_keep_alive)
  | h_matching_connection_close => Some ("close"%string, h_connection_close)
  | _ => None
  end.
Definition word_done (hs : hstate) : bool :=
  match hs with h_transfer_encoding_chunked | h_connection_keep_alive | h_connection_close => true | _ => false end.

Lemma rtrim_cons c t : rtrim (c :: t) = if beqb (rtrim t) [] && Ascii.eqb c SP then [] else c :: rtrim t.
Proof. cbn [rtrim]. destruct (rtrim t) eqn:E; [rewrite beqb_nil; cbn [andb]; destruct (Ascii.eqb c SP); auto|now rewrite beqb_cons_nil]. Qed.

Lemma vfold_done v : forall h, word_done (h_hs h) = true -> exists hs, vfold h v = VOk (hset_hs hs h) /\
  hs = if beqb (rtrim v) [] then h_hs h else h_general.
Proof.
  induction v as [|c v IH]; intros h D.
  - exists (h_hs h). split; [destruct h|]; reflexivity.
  - cbn [vfold]. assert (E : value_step c h = VOk (if negb (ceq c SP) then hset_hs h_general h else h)) by
      (unfold value_step; destruct (h_hs h); try discriminate; reflexivity).
    rewrite E. rewrite rtrim_cons. unfold ceq. destruct (Ascii.eqb c SP); cbn [negb].
    + destruct (IH h D) as (hs & E1 & ->). rewrite E1. eexists. split; [reflexivity|].
      destruct (beqb (rtrim v) []); cbn [andb]; auto.
    + rewrite vfold_general by reflexivity. rewrite andb_false_r. rewrite beqb_cons_nil. eauto.
Qed.

Lemma vfold_word w done : (w, done) = ("chunked"%string, h_transfer_encoding_chunked) \/ (w, done) = ("keep-alive"%string, h_connection_keep_alive) \/
   (w, done) = ("close"%string, h_connection_close) ->
  forall v h, word_of (h_hs h) = Some (w, done) -> (S (h_index h) < length (lit w))%nat -> ~ In CR v ->
  exists hs i, vfold h v = VOk (hset_index i (hset_hs hs h)) /\
    (if beqb (lower (rtrim v)) (skipn (S (h_index h)) (lit w)) then hs = done else word_done hs = false /\ value_hs hs = true).
Proof.
  intros W. assert (Wd : word_done done = true) by (destruct W as [E|[E|E]]; injection E as -> ->; reflexivity).
  assert (Wl : forall x, In x (lit w) -> mem x (lit "chunkedp-alivos") = true).
  { intros x Hx. destruct W as [E|[E|E]]; injection E as -> ->; cbn in Hx; repeat (destruct Hx as [<-|Hx]; [reflexivity|]); destruct Hx. }
  assert (Wn : forall x, In x (lit w) -> x <> SP).
  { intros x Hx. destruct W as [E|[E|E]]; injection E as -> ->; cbn in Hx; repeat (destruct Hx as [<-|Hx]; [discriminate|]); destruct Hx. }
  induction v as [|c v IH]; intros h Wo Hi NC.
  - exists (h_hs h), (h_index h). split; [destruct h; reflexivity|]. cbn [rtrim lower map]. rewrite (skipn_nth NUL) by lia. rewrite beqb_nil_cons.
    destruct (h_hs h); try discriminate; auto.
  - cbn [vfold].
    assert (E : value_step c h = value_word w done (LOWER c) h) by
      (unfold value_step; destruct (h_hs h); try discriminate; injection Wo as <- <-; reflexivity).
    rewrite E. unfold value_word, match_word.
    replace (length (lit w) <? S (h_index h))%nat with false by (symmetry; apply Nat.ltb_ge; lia). cbn [orb].
    rewrite (skipn_nth NUL (S (h_index h))) by lia.
    set (x := nth (S (h_index h)) (lit w) NUL). assert (Hx : In x (lit w)) by (apply nth_In; lia).
    unfold ceq. rewrite LOWER_lower by (try apply Wl; auto; intros ->; apply NC; now left).
    rewrite rtrim_cons.
    assert (NC' : ~ In CR v) by (intros Q; apply NC; now right).
    destruct (Ascii.eqb_spec (to_lower c) x) as [Ex|Nx]; cbn [negb].
    + assert (c <> SP) by (intros ->; apply (Wn x Hx); rewrite <- Ex; reflexivity).
      destruct (Ascii.eqb_spec c SP); [congruence|]. rewrite andb_false_r. cbn [lower map]. rewrite Ex, beqb_cons, Ascii.eqb_refl. cbn [andb].
      destruct (S (h_index h) =? length (lit w) - 1)%nat eqn:L.
      * apply Nat.eqb_eq in L. rewrite (skipn_all2 (n := S (S (h_index h)))) by lia.
        destruct (vfold_done v (hset_index (S (h_index h)) (hset_hs done h))) as (hs & E1 & E2); [exact Wd|].
        exists hs, (S (h_index h)). split; [rewrite E1; reflexivity|].
        change (map to_lower (rtrim v)) with (lower (rtrim v)).
        destruct (rtrim v) as [|u q]; cbn [lower map]; rewrite ?beqb_cons_nil in *; rewrite ?beqb_nil in *; subst hs; hsimp; auto.
      * apply Nat.eqb_neq in L.
        destruct (IH (hset_index (S (h_index h)) (hset_hs (h_hs h) h))) as (hs & i & E1 & E2); hsimp; auto; [lia|].
        exists hs, i. split; [rewrite E1; reflexivity|exact E2].
    + rewrite vfold_general by reflexivity. exists h_general, (S (h_index h)). split; [reflexivity|].
      match goal with |- if ?b then _ else _ => assert (b = false) as -> end; [|auto].
      destruct (beqb (rtrim v) [] && Ascii.eqb c SP).
      * cbn [lower map]. apply beqb_nil_cons.
      * cbn [lower map]. rewrite beqb_cons. destruct (Ascii.eqb_spec (to_lower c) x); [congruence|reflexivity].
Qed.
