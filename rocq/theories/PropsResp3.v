(** C51: the lengths above 64 bits that are refused. *)
From Verif Require Import Bytes ByteHelpers Helpers TextSpec ConnText HelpersProofs Joyent RespParser RespInv RespSplit RespSpec RespFeed RespName RespDecode RespBody RespChunk RespOver RespWhole PropsResp PropsResp2.
Open Scope Z_scope.

(** the parser refuses every stream that begins with [t], however it is cut, and reports no message *)
Definition no_message (lg : list RespParser.rev) : Prop := ~ In RComplete lg.
Definition no_head (lg : list RespParser.rev) : Prop := forall a b c hs, ~ In (RHeaders a b c hs) lg.
Definition refused (r : rparser) (t : bytes) (seen : list RespParser.rev -> Prop) : Prop :=
  forall rest segs, concat segs = t ++ rest ->
  exists r' lg, (forall x, Feed r segs x <-> x = r') /\ hasError r' = true /\ r_log r' = r_log r ++ lg /\ seen lg.

Lemma bytes_cut lg x : forall l, l ++ map RByte x = lg -> exists y, lg = l ++ map RByte y.
Proof. intros l <-. eauto. Qed.
Lemma refused_intro r t lg (seen : list RespParser.rev -> Prop) : usable r -> t <> [] ->
  (forall rest, exists r' k, inject r (t ++ rest) = Some (r', k) /\ hasError r' = true /\ r_log r' = r_log r ++ lg) ->
  (forall l x, l = lg ++ map RByte x \/ lg = l ++ map RByte x -> seen l) -> lg <> [] -> (forall x y, r_log r ++ lg = x ++ map RByte y -> exists l, x = r_log r ++ l) -> refused r t seen.
Proof.
  intros U NE H Se NL Pre rest segs Ec. destruct (H rest) as (r1 & k & E & HE & L).
  destruct (C46_same_for_every_split r segs [t ++ rest] U) as (p & q & Fp & Fq & _ & Eq & _ & x & X).
  { cbn. rewrite app_nil_r. exact Ec. }
  assert (q = r1).
  { symmetry. apply Fq. eapply Feed_err; eauto. destruct t; [congruence|discriminate]. }
  subst q. assert (HE' : hasError p = true) by (unfold hasError in *; rewrite Eq; exact HE).
  destruct X as [[X _]|[X _]].
  - rewrite L in X. destruct (Pre _ _ X) as [l El]. exists p, l. rewrite El in X. rewrite <- app_assoc in X. apply app_inv_head in X. 
    split; [exact Fp|split; [exact HE'|split; [exact El|]]]. eapply Se. right. exact X.
  - rewrite L in X. exists p, (lg ++ map RByte x). rewrite app_assoc. split; [exact Fp|split; [exact HE'|split; [exact X|]]]. eapply Se. left. reflexivity.
Qed.
Lemma bytes_prefix (a : list RespParser.rev) e lg x y : (forall z, e <> RByte z) -> a ++ e :: lg = x ++ map RByte y -> exists l, x = a ++ e :: l.
Proof.
  intros NB. revert x. induction a as [|w a IH]; intros x E.
  - destruct x as [|v x]; cbn [app] in *.
    + destruct y as [|z y]; [discriminate|]. injection E as E _. destruct (NB z E).
    + injection E as -> _. eauto.
  - destruct x as [|v x]; cbn [app] in *.
    + exfalso. clear IH. destruct y as [|z y]; [discriminate|]. injection E as _ E. assert (I : In e (map RByte y)) by (rewrite <- E, in_app_iff; right; left; reflexivity).
      apply in_map_iff in I as (k & Q & _). exact (NB k (eq_sym Q)).
    + injection E as -> E. destruct (IH _ E) as [l ->]. eauto.
Qed.
Lemma not_byte x e : (forall z, e <> RByte z) -> ~ In e (map RByte x).
Proof. intros N I. apply in_map_iff in I as (z & Q & _). exact (N z (eq_sym Q)). Qed.

(** Content-Length: from 2^64-1 to 20496382304121724016 *)
Theorem C51_content_length_partial r sl t n w ds a b c v hs o : waiting r -> StatusLine sl a b c -> HeaderLines t hs -> ContentLength hs o ->
  lower n = lit "content-length" -> forallb blank_char w = true -> Digits 10 ds v -> 2 ^ 64 - 1 <= v <= 20496382304121724016 ->
  blen (sl ++ t ++ n ++ lit ":" ++ w ++ ds) <= max_head - 2 ->
  refused r (sl ++ t ++ n ++ lit ":" ++ w ++ ds) (fun lg => no_message lg /\ no_head lg).
Proof.
  intros W HS HT HC HN HW HD HV HB. 
  apply refused_intro with (lg := [RBegin]).
  - now apply waiting_usable.
  - destruct HS. discriminate.
  - intros rest. destruct (inject_length r sl t n w ds rest a b c v hs o (waiting_ready _ W) HS HT HC HN HW HD HV HB) as (r' & k & E & X). exists r', k.
    rewrite <- !app_assoc. auto.
  - intros l x [->|Q].
    + split; [intros [Q|Q]; [discriminate|revert Q; apply not_byte; discriminate]|].
      intros p q z h [Q|Q]; [discriminate|revert Q; apply not_byte; discriminate].
    + split; [intros I|intros p q z h I]; assert (J : In RBegin (l ++ map RByte x)) by (rewrite <- Q; left; reflexivity);
        (match type of I with In ?e l => assert (K : In e [RBegin]) by (rewrite Q, in_app_iff; auto); destruct K as [K|[]]; discriminate end).
  - discriminate.
  - intros x y Q. apply bytes_prefix in Q as [l ->]; [eauto|discriminate].
Qed.
(** chunk sizes: from 2^64-1 to 19676527011956855056, in any chunk *)
Theorem C51_chunk_size_partial r txt a b c hs o t body ds v : waiting r -> ResponseHead txt a b c hs -> blen txt <= max_head - 2 -> no_upgrade hs = true ->
  chunked_resp hs = true -> ContentLength hs o -> SomeChunks t body -> Digits 16 ds v -> 2 ^ 64 - 1 <= v <= 19676527011956855056 -> blen ds <= max_head - 2 ->
  refused r (txt ++ t ++ ds) (fun lg => no_message lg).
Proof.
  intros W HD HL NU NC CL CB DD HV HB. apply refused_intro with (lg := RBegin :: RHeaders a b c hs :: map RByte body).
  - now apply waiting_usable.
  - destruct HD as [? ? ? ? ? ? []]. discriminate.
  - intros rest. destruct (inject_size r txt a b c hs o t body ds v rest (waiting_ready _ W) HD HL NU NC CL CB DD HV HB) as (r' & k & E & X). exists r', k.
    rewrite <- !app_assoc. auto.
  - assert (B : forall z, ~ In RComplete (map RByte z)) by (intros z; apply not_byte; discriminate).
    intros l x [->|Q] I.
    + rewrite in_app_iff in I. destruct I as [[I|[I|I]]|I]; try discriminate; exact (B _ I).
    + assert (K : In RComplete (RBegin :: RHeaders a b c hs :: map RByte body)) by (rewrite Q, in_app_iff; auto).
      destruct K as [K|[K|K]]; try discriminate. exact (B _ K).
  - discriminate.
  - intros x y Q. apply bytes_prefix in Q as [l ->]; [eauto|discriminate].
Qed.

(** both ends are exact: one above, the length is taken for a shorter one; one below, it is taken for what it is *)
Definition len_txt (s : string) : bytes := (lit "HTTP/1.1 200 OK" ++ CRLF) ++ hl "Content-Length" s ++ CRLF.
Theorem C51_first_missed_refuted : exists r', inject rfresh (len_txt "20496382304121724017") = Some (r', blen (len_txt "20496382304121724017")) /\ hasError r' = false /\
  r_log r' = [RBegin; RHeaders 1 1 200 [(lit "Content-Length", lit "20496382304121724017")]] /\ h_cl (r_h r') = 2049638230412172401.
Proof. eexists. split; [vm_compute; reflexivity|]. vm_compute. auto. Qed.
Theorem C51_first_missed_chunk_refuted : exists r' n, inject rfresh (chunk_txt ++ lit "11111111111111111" ++ CRLF) = Some (r', n) /\ hasError r' = false /\
  h_cl (r_h r') = 1229782938247303441 /\ Digits 16 (lit "11111111111111111") (19676527011956855056 + 1).
Proof.
  eexists _, _. split; [vm_compute; reflexivity|]. split; [reflexivity|]. split; [reflexivity|].
  do 16 (match goal with |- Digits 16 ?l ?n => let m := eval vm_compute in (n / 16) in let k := eval vm_compute in (firstn (length l - 1) l) in
      change n with (16 * m + 1); apply (D_more 16 k m "1"%char 1); [|reflexivity|reflexivity] end). apply dig16; reflexivity.
Qed.

(** ** cases *)
Ltac digits b x d := match goal with |- Digits b ?l ?n => let m := eval vm_compute in (n / b) in let k := eval vm_compute in (firstn (length l - 1) l) in
      change n with (b * m + d); apply (D_more b k m x d); [|reflexivity|reflexivity] end.
Lemma C51_applies : Digits 10 (lit "18446744073709551615") 18446744073709551615 /\
  refused rfresh ((lit "HTTP/1.1 200 OK" ++ CRLF) ++ hl "X-A" "b c" ++ lit "Content-LENGTH" ++ lit ":" ++ lit " " ++ lit "18446744073709551615") (fun lg => no_message lg /\ no_head lg).
Proof.
  assert (D : Digits 10 (lit "18446744073709551615") 18446744073709551615).
  { digits 10 "5"%char 5; digits 10 "1"%char 1; digits 10 "6"%char 6; digits 10 "1"%char 1; digits 10 "5"%char 5; digits 10 "5"%char 5; digits 10 "9"%char 9; digits 10 "0"%char 0;
    digits 10 "7"%char 7; digits 10 "3"%char 3; digits 10 "7"%char 7; digits 10 "0"%char 0; digits 10 "4"%char 4; digits 10 "4"%char 4; digits 10 "7"%char 7; digits 10 "6"%char 6;
    digits 10 "4"%char 4; digits 10 "4"%char 4; digits 10 "8"%char 8; apply dig1; reflexivity. }
  split; [exact D|].
  eapply C51_content_length_partial; [constructor|apply ok_line| | |reflexivity|reflexivity|exact D|lia|vm_compute; discriminate].
  - unfold hl. replace CRLF with (CRLF ++ []) by reflexivity. apply HL_cons; try reflexivity. constructor.
  - apply CL_other; [reflexivity|constructor].
Qed.
Lemma C51_chunk_applies : Digits 16 (lit "10000000000000000") (2 ^ 64) /\
  refused rfresh (chunk_txt ++ ((lit "3" ++ lit ";x=y" ++ CRLF) ++ lit "0aZ" ++ CRLF ++ []) ++ lit "10000000000000000") no_message.
Proof.
  assert (D : Digits 16 (lit "10000000000000000") (2 ^ 64)).
  { change (2 ^ 64) with 18446744073709551616. do 16 digits 16 "0"%char 0. apply dig16; reflexivity. }
  split; [exact D|].
  eapply C51_chunk_size_partial; [constructor|apply chunk_head|vm_compute; discriminate|reflexivity|reflexivity|apply CL_other; [reflexivity|constructor]| |exact D|lia|vm_compute; discriminate].
  apply Ch_more; [discriminate|apply SzL; [apply dig16; reflexivity|vm_compute; discriminate|right; exists ";"%char, (lit "x=y"); auto|vm_compute; discriminate]|constructor].
Qed.
