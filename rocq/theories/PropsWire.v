(** C49: what the server writes is what the client's parser reads. *)
From Verif Require Import Bytes ByteHelpers Helpers TextSpec ReqGrammar Conn ConnSpec ConnLog Joyent RespParser RespSpec RespFeed RespBody RespWhole PropsResp PropsResp2.
Open Scope Z_scope.

(** header names are tokens; values have no line end and no blank at either end; the client takes Upgrade and
    Proxy-Connection for itself *)
Definition clean_header (h : header) : bool :=
  wf_name (fst h) && wf_value (snd h) && beqb (rtrim (snd h)) (snd h) && negb (named "upgrade" h) && negb (named "proxy-connection" h).
Record clean_answer (a : answer) : Prop := mkClean {
  ca_hs : forallb clean_header (a_headers a) = true;
  ca_code : exists m, In (a_code a, m) std_status }.

(** the headers written *)
Definition sent_headers (r : request) (a : answer) (len : Z) (digits : bytes) : list header :=
  filter (fun h => negb (special h)) (a_headers a)
  ++ (if len =? -1 then [] else [(lit "Content-Length", digits)])
  ++ match last_named "content-type" (a_headers a) with
     | Some h => [h]
     | None => if 0 <? len then [(lit "Content-Type", lit "text/plain")] else []
     end
  ++ (if negb (http11_req r) || negb (keeps r a len)
      then [(lit "Connection", lit (if keeps r a len then "keep-alive" else "close"))] else [])
  ++ match last_named "transfer-encoding" (a_headers a) with
     | Some h => if wants_chunked a && negb (ConnSpec.chunked_resp r a len) then [] else [h]
     | None => []
     end.

Lemma HeaderLines_app t1 h1 : HeaderLines t1 h1 -> forall t2 h2, HeaderLines t2 h2 -> HeaderLines (t1 ++ t2) (h1 ++ h2).
Proof.
  induction 1 as [|n w v t hs Hn Hw Hv H IH]; intros t2 h2 H2; auto.
  rewrite <- !app_assoc. cbn [app]. apply HL_cons; auto.
Qed.
Lemma one_line h : wf_name (fst h) = true -> wf_value (snd h) = true -> HeaderLines (line h) [h].
Proof.
  intros N V. destruct h as [n v]. unfold line. cbn [fst snd] in *.
  replace (n ++ lit ": " ++ v ++ CRLF) with (n ++ lit ":" ++ lit " " ++ v ++ CRLF ++ []) by (rewrite app_nil_r; reflexivity).
  apply HL_cons; auto. constructor.
Qed.
Lemma clean_lines hs : forallb clean_header hs = true -> HeaderLines (concat (map line hs)) hs.
Proof.
  induction hs as [|h hs IH]; cbn [forallb map concat]; intros H; [constructor|].
  apply andb_prop in H as [H1 H2]. change (h :: hs) with ([h] ++ hs). apply HeaderLines_app; auto.
  unfold clean_header in H1. do 3 (apply andb_prop in H1 as [H1 _]). apply andb_prop in H1 as [? ?]. now apply one_line.
Qed.
Lemma clean_filter f hs : forallb clean_header hs = true -> forallb clean_header (filter f hs) = true.
Proof. intros H. apply forallb_forall. intros x Hx. apply filter_In in Hx as [Hx _]. rewrite forallb_forall in H. auto. Qed.
Lemma last_named_in name hs h : last_named name hs = Some h -> In h hs /\ named name h = true.
Proof.
  unfold last_named. intros H. destruct (List.rev (filter (named name) hs)) as [|x l] eqn:E; [discriminate|]. injection H as ->.
  assert (I : In h (List.rev (filter (named name) hs))) by (rewrite E; now left). apply in_rev in I. apply filter_In in I. tauto.
Qed.

Lemma digit_token c d : digit_val c = Some d -> d < 10 -> is_digit c = true.
Proof.
  intros H L. pose proof (forall_bytes (fun c => match digit_val c with Some d => implb (d <? 10) (is_digit c) | None => true end) ltac:(vm_compute; reflexivity) c) as G.
  cbn beta in G. rewrite H in G. apply Z.ltb_lt in L. rewrite L in G. exact G.
Qed.
Lemma digits_value ds n : Digits 10 ds n -> wf_value ds = true.
Proof.
  assert (A : forall c, is_digit c = true -> negb (Ascii.eqb c CR) && negb (Ascii.eqb c LF) && negb (blank_char c) = true).
  { intros c. pose proof (forall_bytes (fun c => implb (is_digit c) (negb (Ascii.eqb c CR) && negb (Ascii.eqb c LF) && negb (blank_char c))) ltac:(vm_compute; reflexivity) c) as G.
    cbn beta in G. intros H. rewrite H in G. exact G. }
  intros H.
  assert (B : forallb is_digit ds = true /\ ds <> []).
  { induction H as [c d Hd Hl|s n c d Hs IH Hd Hl].
    - cbn. rewrite (digit_token c d) by auto. split; [auto|discriminate].
    - destruct IH as [IH _]. rewrite forallb_app, IH. cbn. rewrite (digit_token c d) by auto. split; auto. destruct s; discriminate. }
  destruct B as [B N]. unfold wf_value. apply andb_true_intro. split.
  - apply forallb_forall. intros c Hc. rewrite forallb_forall in B. specialize (A c (B c Hc)). apply andb_prop in A as [A _]. auto.
  - destruct ds as [|c t]; [congruence|]. cbn in B. apply andb_prop in B as [B _]. apply A in B. apply andb_prop in B as [_ B]. exact B.
Qed.
Lemma canon_digits base s n : Canonical base s n -> 0 <= n -> Digits base s n.
Proof.
  intros (ds & D & E & _) P. rewrite Z.abs_eq in D by auto. destruct (Z.ltb_spec n 0); [lia|]. now subst s.
Qed.
Lemma first_digit c d : digit_val c = Some d -> c <> "0"%char -> 1 <= d.
Proof.
  intros H N. pose proof (forall_bytes (fun c => match digit_val c with Some d => Ascii.eqb c "0" || (1 <=? d) | None => true end) ltac:(vm_compute; reflexivity) c) as G.
  cbn beta in G. rewrite H in G. apply orb_prop in G as [G|G]; [apply Ascii.eqb_eq in G; congruence|now apply Z.leb_le].
Qed.
Lemma canon_length s n : Digits 16 s n -> (forall t, s <> "0"%char :: t) -> 16 ^ (blen s - 1) <= n.
Proof.
  induction 1 as [c d Hd Hl|s n c d Hs IH Hd Hl]; intros N.
  - replace (blen [c] - 1) with 0 by reflexivity. rewrite Z.pow_0_r. apply (first_digit c); auto. intros ->. now apply (N []).
  - assert (N' : forall t, s <> "0"%char :: t) by (intros t ->; eapply N; reflexivity).
    specialize (IH N'). rewrite blen_app. change (blen [c]) with 1.
    assert (1 <= blen s) by (destruct s; [now apply HelpersProofs.Digits_nil in Hs|rewrite blen_cons; pose proof (blen_nonneg s); lia]).
    replace (blen s + 1 - 1) with (Z.succ (blen s - 1)) by lia. rewrite Z.pow_succ_r by lia.
    assert (0 <= d). { pose proof (forall_bytes (fun c => match digit_val c with Some d => 0 <=? d | None => true end) ltac:(vm_compute; reflexivity) c) as G. cbn beta in G. rewrite Hd in G. now apply Z.leb_le. }
    lia.
Qed.
Lemma canon_size d p : Canonical 16 d (blen p) -> blen p <= max_length -> SizeLine (d ++ [] ++ CRLF) (blen p).
Proof.
  intros C M. pose proof (canon_digits _ _ _ C (blen_nonneg p)) as D. apply SzL; auto.
  destruct C as (ds & D' & E & _ & Z0). destruct (Z.ltb_spec (blen p) 0); [pose proof (blen_nonneg p); lia|]. subst ds.
  rewrite !blen_app. change (blen CRLF) with 2. change (blen []) with 0. unfold RespSpec.max_head.
  destruct d as [|c t]; [rewrite blen_nil; lia|]. destruct (Ascii.eqb_spec c "0").
  - subst c. rewrite (Z0 t eq_refl). cbn. lia.
  - assert (L : 16 ^ (blen (c :: t) - 1) <= blen p) by (apply canon_length; auto; intros; congruence).
    destruct (Z.leb_spec (blen (c :: t)) 17); [lia|]. exfalso.
    assert (16 ^ 17 <= 16 ^ (blen (c :: t) - 1)) by (apply Z.pow_le_mono_r; lia). assert (X : max_length < 16 ^ 17) by reflexivity. lia.
Qed.
Lemma Chunks_body e c : Chunks e c -> blen c <= max_length -> ChunkedBody (e ++ lit "0" ++ CRLF ++ CRLF) c.
Proof.
  induction 1 as [|d p e c C N H IH]; intros M.
  - change ([] ++ lit "0" ++ CRLF ++ CRLF) with ((lit "0" ++ [] ++ CRLF) ++ CRLF). apply CB_last. apply SzL; [apply dig16; reflexivity|vm_compute; discriminate|auto|vm_compute; discriminate].
  - rewrite blen_app in M. pose proof (blen_nonneg p). pose proof (blen_nonneg c).
    replace ((d ++ CRLF ++ p ++ CRLF ++ e) ++ lit "0" ++ CRLF ++ CRLF) with ((d ++ [] ++ CRLF) ++ p ++ CRLF ++ (e ++ lit "0" ++ CRLF ++ CRLF)) by (cbn [app]; now rewrite <- !app_assoc).
    apply CB_more; auto; [apply canon_size; auto; lia|apply IH; lia].
Qed.

(** the status line *)
Lemma status_digits code m : In (code, m) std_status -> Digits 10 (three code) code /\ code <= 999 /\ eol_free (lit m) = true.
Proof.
  intros I. assert (A : forall x, In x std_status -> (exists a b c, three (fst x) = [dig a; dig b; dig c] /\ fst x = 10 * (10 * a + b) + c /\ 0 <= a < 10 /\ 0 <= b < 10 /\ 0 <= c < 10) /\ fst x <= 999 /\ eol_free (lit (snd x)) = true).
  { intros x Hx. cbn in Hx. repeat (destruct Hx as [<-|Hx]; [split; [eexists _, _, _; split; [reflexivity|cbn; lia]|split; [cbn; lia|reflexivity]]|]). destruct Hx. }
  destruct (A _ I) as ((x & y & z & E & V & X & Y & Z) & L & F). cbn [fst snd] in *. split; [|auto]. rewrite E, V.
  assert (Dg : forall n, 0 <= n < 10 -> digit_val (dig n) = Some n).
  { intros n Hn. assert (n = 0 \/ n = 1 \/ n = 2 \/ n = 3 \/ n = 4 \/ n = 5 \/ n = 6 \/ n = 7 \/ n = 8 \/ n = 9) as Q by lia.
    repeat (destruct Q as [->|Q]; [reflexivity|]). subst n. reflexivity. }
  change [dig x; dig y; dig z] with (([dig x] ++ [dig y]) ++ [dig z]). apply D_more; [apply D_more; [apply D_one|..]|..]; auto; lia.
Qed.

Lemma is_word_clean w v : rtrim v = v -> is_word w v = beqb (lower v) (lit w).
Proof. intros E. unfold is_word. now rewrite E. Qed.
Lemma has_other name other h : named other h = true -> beqb (lit other) (lit name) = false -> has_name name h = false.
Proof. unfold named, has_name. intros H N. apply beqb_true in H. rewrite H. exact N. Qed.
Lemma existsb_none {A} (f : A -> bool) l : (forall x, In x l -> f x = false) -> existsb f l = false.
Proof. induction l as [|x l IH]; intros H; auto. cbn. rewrite H by now left. apply IH. intros y Hy. apply H. now right. Qed.
Lemma last_none name hs : last_named name hs = None -> forall h, In h hs -> named name h = false.
Proof.
  unfold last_named. destruct (List.rev (filter (named name) hs)) eqn:E; [|discriminate]. intros _ h Hh.
  destruct (named name h) eqn:N; auto. exfalso. assert (I : In h (filter (named name) hs)) by (apply filter_In; auto).
  apply in_rev in I. rewrite E in I. destruct I.
Qed.

Section Sent.
Variables (r : request) (a : answer) (len : Z) (digits da db : bytes) (major minor : Z).
Hypothesis CA : clean_answer a.
Hypothesis V : q_version r = lit "HTTP/" ++ da ++ lit "." ++ db.
Hypothesis Da : Digits 10 da major.
Hypothesis Db : Digits 10 db minor.
Hypothesis Dl : len = -1 \/ Digits 10 digits len.
Let hs := sent_headers r a len digits.

Lemma clean_in h : In h (a_headers a) -> wf_name (fst h) = true /\ wf_value (snd h) = true /\ rtrim (snd h) = snd h /\ has_name "upgrade" h = false /\ has_name "proxy-connection" h = false.
Proof.
  intros I. pose proof (ca_hs _ CA) as H. rewrite forallb_forall in H. specialize (H h I). unfold clean_header in H.
  apply andb_prop in H as [H H5]. apply andb_prop in H as [H H4]. apply andb_prop in H as [H H3]. apply andb_prop in H as [H1 H2].
  apply negb_true_iff in H4, H5. repeat split; auto. now apply beqb_true.
Qed.

(** by parts *)
Definition part1 := filter (fun h => negb (special h)) (a_headers a).
Definition part2 := if len =? -1 then [] else [(lit "Content-Length", digits)].
Definition part3 := match last_named "content-type" (a_headers a) with
     | Some h => [h]
     | None => if 0 <? len then [(lit "Content-Type", lit "text/plain")] else []
     end.
Definition part4 := if negb (http11_req r) || negb (keeps r a len)
      then [(lit "Connection", lit (if keeps r a len then "keep-alive" else "close"))] else [].
Definition part5 := match last_named "transfer-encoding" (a_headers a) with
     | Some h => if wants_chunked a && negb (ConnSpec.chunked_resp r a len) then [] else [h]
     | None => []
     end.
Lemma hs_parts : hs = part1 ++ part2 ++ part3 ++ part4 ++ part5.
Proof. reflexivity. Qed.

Lemma in_part1 h : In h part1 -> In h (a_headers a) /\ has_name "content-length" h = false /\ has_name "content-type" h = false /\ has_name "connection" h = false /\ has_name "transfer-encoding" h = false.
Proof.
  intros I. apply filter_In in I as [I S]. split; auto. apply negb_true_iff in S. unfold special in S.
  apply orb_false_iff in S as [S S4]. apply orb_false_iff in S as [S S3]. apply orb_false_iff in S as [S1 S2]. auto.
Qed.
Lemma part3_name h : In h part3 -> named "content-type" h = true.
Proof.
  unfold part3. destruct (last_named "content-type" (a_headers a)) as [x|] eqn:E.
  - intros [<-|[]]. apply last_named_in in E. tauto.
  - destruct (0 <? len); intros []; try contradiction. subst h. reflexivity.
Qed.
Lemma part4_name h : In h part4 -> named "connection" h = true.
Proof. unfold part4. destruct (_ || _); intros []; try contradiction. subst h. reflexivity. Qed.
Lemma part5_name h : In h part5 -> named "transfer-encoding" h = true /\ In h (a_headers a).
Proof.
  unfold part5. destruct (last_named "transfer-encoding" (a_headers a)) as [x|] eqn:E; [|intros []].
  destruct (_ && _); intros []; try contradiction. subst h. apply last_named_in in E. tauto.
Qed.
Lemma part2_name h : In h part2 -> named "content-length" h = true.
Proof. unfold part2. destruct (len =? -1); intros []; try contradiction. subst h. reflexivity. Qed.

Lemma sent_lines : exists t, HeaderLines t hs /\ t =
  concat (map line (filter (fun h => negb (special h)) (a_headers a)))
       ++ (if len =? -1 then [] else lit "Content-Length: " ++ digits ++ CRLF)
       ++ match last_named "content-type" (a_headers a) with
          | Some h => line h
          | None => if 0 <? len then lit "Content-Type: text/plain" ++ CRLF else []
          end
       ++ (if negb (http11_req r) || negb (keeps r a len)
           then lit (if keeps r a len then "Connection: keep-alive" else "Connection: close") ++ CRLF else [])
       ++ match last_named "transfer-encoding" (a_headers a) with
          | Some h => if wants_chunked a && negb (ConnSpec.chunked_resp r a len) then [] else line h
          | None => []
          end.
Proof.
  eexists. split; [|reflexivity]. rewrite hs_parts.
  apply HeaderLines_app; [apply clean_lines, clean_filter, (ca_hs _ CA)|].
  apply HeaderLines_app.
  { unfold part2. destruct (len =? -1) eqn:E; [constructor|]. destruct Dl as [->|D]; [discriminate|].
    apply (one_line (lit "Content-Length", digits)); [reflexivity|now apply (digits_value _ len)]. }
  apply HeaderLines_app.
  { unfold part3. destruct (last_named "content-type" (a_headers a)) as [x|] eqn:E.
    - apply last_named_in in E as [E _]. apply clean_in in E as (? & ? & _). apply one_line; auto.
    - destruct (0 <? len); [|constructor]. apply (one_line (lit "Content-Type", lit "text/plain")); reflexivity. }
  apply HeaderLines_app.
  { unfold part4. destruct (_ || _); [|constructor]. destruct (keeps r a len).
    - apply (one_line (lit "Connection", lit "keep-alive")); reflexivity.
    - apply (one_line (lit "Connection", lit "close")); reflexivity. }
  unfold part5. destruct (last_named "transfer-encoding" (a_headers a)) as [x|] eqn:E; [|constructor].
  destruct (_ && _); [constructor|]. apply last_named_in in E as [E _]. apply clean_in in E as (? & ? & _). apply one_line; auto.
Qed.

Lemma sent_no_upgrade : no_upgrade hs = true.
Proof.
  unfold no_upgrade. apply negb_true_iff. apply existsb_none. intros h I. rewrite hs_parts, !in_app_iff in I.
  destruct I as [I|[I|[I|[I|I]]]].
  - apply in_part1 in I as [I _]. apply clean_in in I. tauto.
  - apply part2_name in I. eapply has_other; eauto.
  - apply part3_name in I. eapply has_other; eauto.
  - apply part4_name in I. eapply has_other; eauto.
  - apply part5_name in I as [I _]. eapply has_other; eauto.
Qed.
Lemma sent_chunked : RespSpec.chunked_resp hs = ConnSpec.chunked_resp r a len.
Proof.
  unfold RespSpec.chunked_resp. rewrite hs_parts, !existsb_app.
  rewrite (existsb_none _ part1), (existsb_none _ part2), (existsb_none _ part3), (existsb_none _ part4); cbn [orb].
  - unfold part5, ConnSpec.chunked_resp, wants_chunked, says.
    destruct (last_named "transfer-encoding" (a_headers a)) as [x|] eqn:E; [|reflexivity].
    cbn [option_map]. apply last_named_in in E as [I N]. pose proof (clean_in _ I) as (_ & _ & T & _ & _).
    destruct (beqb (lower (snd x)) (lit "chunked")) eqn:W; cbn [andb].
    + destruct (http11_req r && (len =? -1)) eqn:Q; cbn [negb existsb]; auto.
      rewrite is_word_clean, W by auto. unfold has_name. unfold named in N. rewrite N. reflexivity.
    + cbn [existsb]. rewrite is_word_clean, W by auto. now rewrite andb_false_r.
  - intros h I. apply part4_name in I. rewrite (has_other _ _ _ I) by reflexivity. reflexivity.
  - intros h I. apply part3_name in I. rewrite (has_other _ _ _ I) by reflexivity. reflexivity.
  - intros h I. apply part2_name in I. rewrite (has_other _ _ _ I) by reflexivity. reflexivity.
  - intros h I. apply in_part1 in I as (_ & _ & _ & _ & ->). reflexivity.
Qed.

Lemma CL_app_none h1 : (forall h, In h h1 -> has_name "content-length" h = false) -> forall h2 o, ContentLength h2 o -> ContentLength (h1 ++ h2) o.
Proof. induction h1 as [|h h1 IH]; intros N h2 o C; auto. cbn [app]. apply CL_other; [apply N; now left|apply IH; auto]. intros; apply N; now right. Qed.
Lemma sent_length : len <= max_length -> ContentLength hs (if len =? -1 then None else Some len).
Proof.
  intros M. rewrite hs_parts. apply CL_app_none; [intros h I; apply in_part1 in I; tauto|].
  assert (R : ContentLength (part3 ++ part4 ++ part5) None).
  { rewrite <- (app_nil_r (part3 ++ part4 ++ part5)). apply CL_app_none; [|constructor]. intros h I. rewrite !in_app_iff in I. destruct I as [I|[I|I]].
    - apply part3_name in I. eapply has_other; eauto.
    - apply part4_name in I. eapply has_other; eauto.
    - apply part5_name in I as [I _]. eapply has_other; eauto. }
  unfold part2. destruct (len =? -1) eqn:E; [exact R|]. destruct Dl as [->|D]; [discriminate|]. cbn [app]. apply CL_last; auto.
Qed.

Lemma version11 : http11_req r = true -> major = 1 /\ minor = 1.
Proof.
  intros H. apply beqb_true in H. rewrite V in H. change (lit "HTTP/1.1") with (lit "HTTP/" ++ lit "1.1") in H. apply app_inv_head in H.
  assert (A : da = lit "1" /\ db = lit "1").
  { destruct da as [|c1 [|c2 [|c3 t]]].
    - apply HelpersProofs.Digits_nil in Da as [].
    - cbn in H. injection H as -> ->. auto.
    - cbn in H. injection H as -> -> E. destruct db; discriminate.
    - cbn in H. injection H as -> -> E. destruct t as [|? t]; discriminate. }
  destruct A as [-> ->]. split; [eapply HelpersProofs.Digits_fun; [exact Da|apply dig1; reflexivity]|eapply HelpersProofs.Digits_fun; [exact Db|apply dig1; reflexivity]].
Qed.
Lemma sent_connection w : connection_says w hs = match part4 with [h] => is_word w (snd h) | _ => false end.
Proof.
  unfold connection_says. rewrite hs_parts, !existsb_app.
  rewrite (existsb_none _ part1), (existsb_none _ part2), (existsb_none _ part3), (existsb_none _ part5); cbn [orb].
  - rewrite orb_false_r. unfold part4. destruct (_ || _); [|reflexivity]. cbn [existsb snd].
    change (has_name "connection" (lit "Connection", lit (if keeps r a len then "keep-alive" else "close"))) with true. cbn [orb andb]. now rewrite orb_false_r.
  - intros h I. apply part5_name in I as [I _]. rewrite !(has_other _ _ _ I) by reflexivity. reflexivity.
  - intros h I. apply part3_name in I. rewrite !(has_other _ _ _ I) by reflexivity. reflexivity.
  - intros h I. apply part2_name in I. rewrite !(has_other _ _ _ I) by reflexivity. reflexivity.
  - intros h I. apply in_part1 in I as (I & _ & _ & -> & _). apply clean_in in I as (_ & _ & _ & _ & ->). reflexivity.
Qed.
Lemma sent_open : stays_open major minor hs = keeps r a len.
Proof.
  unfold stays_open. rewrite !sent_connection. unfold part4. destruct (http11_req r) eqn:H; cbn [negb orb].
  - destruct (version11 H) as [-> ->]. cbn [Z.ltb Z.compare andb]. destruct (keeps r a len); reflexivity.
  - destruct ((0 <? major) && (0 <? minor)), (keeps r a len); reflexivity.
Qed.
Lemma sent_user : filter (fun h => negb (special h)) hs = filter (fun h => negb (special h)) (a_headers a).
Proof.
  rewrite hs_parts, !filter_app.
  assert (N : forall l name, (forall h, In h l -> named name h = true) -> (name = "content-length" \/ name = "content-type" \/ name = "connection" \/ name = "transfer-encoding")%string ->
     filter (fun h => negb (special h)) l = []).
  { induction l as [|x l IH]; intros name Hl Hn; auto. cbn [filter].
    assert (X : special x = true).
    { assert (Hx : named name x = true) by (apply Hl; now left). unfold special. destruct Hn as [Hn|[Hn|[Hn|Hn]]]; subst name; rewrite Hx, ?orb_true_r; reflexivity. }
    rewrite X. cbn [negb]. apply (IH name); auto. intros; apply Hl; now right. }
  rewrite (N part2 "content-length"%string), (N part3 "content-type"%string), (N part4 "connection"%string), (N part5 "transfer-encoding"%string); auto 10 using part2_name, part3_name, part4_name.
  - rewrite !app_nil_r. unfold part1. induction (a_headers a) as [|x l IH]; auto. cbn [filter]. destruct (negb (special x)) eqn:S; auto. cbn [filter]. rewrite S. f_equal. apply IH.
  - intros h I. apply part5_name in I. tauto.
Qed.
End Sent.

(** the response head the server writes is one the client's parser accepts *)
Lemma sent_head r a len hd da db major minor : RespHead r a len hd -> clean_answer a -> -1 <= len ->
  q_version r = lit "HTTP/" ++ da ++ lit "." ++ db -> Digits 10 da major -> major <= 999 -> Digits 10 db minor -> minor <= 999 ->
  exists digits, Canonical 10 digits len /\ (len = -1 \/ Digits 10 digits len) /\ ResponseHead hd major minor (a_code a) (sent_headers r a len digits).
Proof.
  intros RH CA L V Da Ma Db Mb. destruct RH as [status digits ST CN]. exists digits. split; auto.
  assert (Dl : len = -1 \/ Digits 10 digits len).
  { destruct (Z.eq_dec len (-1)); [now left|right]. apply canon_digits; auto. lia. }
  split; auto.
  destruct (sent_lines r a len digits CA Dl) as (t & HL & Et).
  destruct (ca_code _ CA) as [m Im].
  assert (ES : status = status_text (a_code a) (lit m)).
  { destruct ST as [m' Im'|N]; [|exfalso; eapply N; eauto].
    assert (forall x y, In x std_status -> In y std_status -> fst x = fst y -> snd x = snd y) as U.
    { assert (G : forallb (fun x => forallb (fun y => implb (fst x =? fst y) (String.eqb (snd x) (snd y))) std_status) std_status = true) by (vm_compute; reflexivity).
      intros x y Hx Hy E. rewrite forallb_forall in G. specialize (G x Hx). rewrite forallb_forall in G. specialize (G y Hy). rewrite E, Z.eqb_refl in G. cbn in G. now apply String.eqb_eq. }
    pose proof (U _ _ Im Im' eq_refl) as Q. cbn in Q. now subst m'. }
  destruct (status_digits _ _ Im) as (Sd & Sl & Se).
  assert (SL : StatusLine (q_version r ++ lit " " ++ status ++ CRLF) major minor (a_code a)).
  { rewrite V, ES. unfold status_text.
    replace ((lit "HTTP/" ++ da ++ lit "." ++ db) ++ lit " " ++ (three (a_code a) ++ lit " " ++ lit m) ++ CRLF)
      with (lit "HTTP/" ++ da ++ lit "." ++ db ++ lit " " ++ three (a_code a) ++ (SP :: lit m) ++ CRLF) by (rewrite <- !app_assoc; reflexivity).
    apply RespSpec.SL; auto. right. eauto. }
  pose proof (RespHd _ _ _ _ _ _ SL HL) as R. rewrite Et in R. rewrite <- !app_assoc in R. exact R.
Qed.

(** the answers [a] to the requests [r] of which all this is claimed; the client is not told that the request was HEAD *)
Record readable (r : request) (a : answer) (len : Z) (content : bytes) (major minor : Z) : Prop := mkReadable {
  rb_clean : clean_answer a;
  rb_nohead : head_req r = false;
  rb_version : exists da db, q_version r = lit "HTTP/" ++ da ++ lit "." ++ db /\ Digits 10 da major /\ major <= 999 /\ Digits 10 db minor /\ minor <= 999;
  rb_fits : blen content <= max_length }.

Lemma whole_headers r a len hd content enc major minor : RespHead r a len hd -> Encoded (framing_of r a len) content enc ->
  framing_of r a len <> UntilClose -> readable r a len content major minor -> blen hd <= RespSpec.max_head - 2 ->
  exists digits, Canonical 10 digits len /\ let hs := sent_headers r a len digits in
    WholeResponse (hd ++ enc) major minor (a_code a) hs content /\ stays_open major minor hs = keeps r a len /\
    filter (fun h => negb (special h)) hs = filter (fun h => negb (special h)) (a_headers a).
Proof.
  intros RHd EN FR [CA NH (da & db & V & Da & Ma & Db & Mb) Fit] HL.
  assert (L : len = -1 /\ ConnSpec.chunked_resp r a len = true \/ 0 <= len /\ ConnSpec.chunked_resp r a len = false).
  { unfold framing_of in FR. rewrite NH, orb_false_r in FR. unfold ConnSpec.chunked_resp in *.
    destruct (Z.eqb_spec len 0); [right; subst; cbn; rewrite andb_false_r; auto with zarith|].
    destruct (Z.ltb_spec 0 len); [right; split; [lia|]; replace (len =? -1) with false by (symmetry; apply Z.eqb_neq; lia); now rewrite andb_false_r|].
    destruct (wants_chunked a && http11_req r && (len =? -1)) eqn:Q; [|congruence]. left. split; auto. apply andb_prop in Q as [_ Q]. now apply Z.eqb_eq. }
  destruct (sent_head r a len hd da db major minor RHd CA) as (digits & CN & Dl & RH0); auto; [lia|].
  exists digits. split; [exact CN|]. cbv zeta.
  pose proof (sent_no_upgrade r a len digits CA Dl) as NU.
  pose proof (sent_chunked r a len digits CA Dl) as CH.
  pose proof (sent_open r a len digits da db major minor CA V Da Db Dl) as SO.
  split; [|split; [exact SO|now apply sent_user]].
  destruct L as [[-> C]|[P C]]; rewrite C in CH.
  - assert (F : framing_of r a (-1) = ChunkedContent) by (unfold framing_of; rewrite NH, C; reflexivity). rewrite F in EN.
    inversion EN; subst. eapply WR_chunked; eauto; [apply (sent_length r a (-1) digits); auto; vm_compute; discriminate|]. apply Chunks_body; auto.
  - assert (CE : enc = content /\ len = blen content).
    { unfold framing_of in EN. rewrite NH, orb_false_r in EN. destruct (Z.eqb_spec len 0); [inversion EN; subst; auto|].
      destruct (Z.ltb_spec 0 len); [|lia]. inversion EN; subst; auto. }
    destruct CE as [-> El]. apply WR_length; auto. rewrite <- El.
    pose proof (sent_length r a len digits Dl ltac:(lia)) as SL. destruct (Z.eqb_spec len (-1)); [lia|]. exact SL.
Qed.
(** the head of a response of known length, whatever is sent after it *)
Lemma sized_headers r a len hd da db major minor : RespHead r a len hd -> clean_answer a -> 0 <= len <= max_length ->
  q_version r = lit "HTTP/" ++ da ++ lit "." ++ db -> Digits 10 da major -> major <= 999 -> Digits 10 db minor -> minor <= 999 ->
  exists digits, Canonical 10 digits len /\ let hs := sent_headers r a len digits in
    ResponseHead hd major minor (a_code a) hs /\ no_upgrade hs = true /\ chunked_resp hs = false /\ ContentLength hs (Some len) /\
    stays_open major minor hs = keeps r a len.
Proof.
  intros RHd CA Hl V Da Ma Db Mb. destruct (sent_head r a len hd da db major minor RHd CA) as (digits & CN & Dl & RH0); auto; [lia|].
  exists digits. split; [exact CN|]. cbv zeta. split; [exact RH0|]. split; [exact (sent_no_upgrade r a len digits CA Dl)|].
  split; [|split; [|exact (sent_open r a len digits da db major minor CA V Da Db Dl)]].
  - rewrite (sent_chunked r a len digits CA Dl). unfold ConnSpec.chunked_resp. replace (len =? -1) with false by (symmetry; apply Z.eqb_neq; lia). apply andb_false_r.
  - pose proof (sent_length r a len digits Dl ltac:(lia)) as SL. destruct (Z.eqb_spec len (-1)); [lia|]. exact SL.
Qed.
Lemma whole_sent r a len hd content enc major minor : RespHead r a len hd -> Encoded (framing_of r a len) content enc ->
  framing_of r a len <> UntilClose -> readable r a len content major minor -> blen hd <= RespSpec.max_head - 2 ->
  exists hs, WholeResponse (hd ++ enc) major minor (a_code a) hs content /\ stays_open major minor hs = keeps r a len /\
    filter (fun h => negb (special h)) hs = filter (fun h => negb (special h)) (a_headers a).
Proof. intros H1 H2 H3 H4 H5. destruct (whole_headers r a len hd content enc major minor H1 H2 H3 H4 H5) as (d & _ & H). eauto. Qed.

(** C49: one response *)
Theorem C49_response r a len hd content enc major minor : RespLength a len -> RespHead r a len hd -> Encoded (framing_of r a len) content enc ->
  framing_of r a len <> UntilClose -> readable r a len content major minor -> blen hd <= RespSpec.max_head - 2 ->
  exists hs, filter (fun h => negb (special h)) hs = filter (fun h => negb (special h)) (a_headers a) /\
    forall p, waiting p -> read_exactly p (hd ++ enc) major minor (a_code a) hs content.
Proof.
  intros _ RHd EN FR RB HL. destruct (whole_sent r a len hd content enc major minor RHd EN FR RB HL) as (hs & W & _ & U).
  exists hs. split; auto. intros p Wp. now apply whole_read.
Qed.
(** a response that ends with the connection *)
Theorem C49_until_close r a hd content enc major minor p segs : RespLength a (-1) -> RespHead r a (-1) hd -> Encoded (framing_of r a (-1)) content enc ->
  framing_of r a (-1) = UntilClose -> readable r a (-1) content major minor -> blen hd <= RespSpec.max_head - 2 -> bodyless (a_code a) = false ->
  waiting p -> concat segs = hd ++ enc ->
  exists hs p1 p2, filter (fun h => negb (special h)) hs = filter (fun h => negb (special h)) (a_headers a) /\
    (forall x, Feed p segs x <-> x = p1) /\ hasError p1 = false /\ injectEof p1 = Some p2 /\ decoded p major minor (a_code a) hs content p2.
Proof.
  intros _ RHd EN FR [CA NH (da & db & V & Da & Ma & Db & Mb) Fit] HL NB Wp Ec. rewrite FR in EN. inversion EN; subst.
  destruct (sent_head r a (-1) hd da db major minor RHd CA) as (digits & CN & Dl & RH0); auto; [lia|].
  assert (C : ConnSpec.chunked_resp r a (-1) = false).
  { unfold framing_of in FR. rewrite NH in FR. destruct (ConnSpec.chunked_resp r a (-1)); [discriminate|reflexivity]. }
  destruct (C47_until_close p hd major minor (a_code a) (sent_headers r a (-1) digits) enc segs) as (p1 & p2 & F & N & _ & E & D); auto.
  - now apply sent_no_upgrade.
  - rewrite sent_chunked; auto.
  - apply (sent_length r a (-1) digits); auto. vm_compute. discriminate.
  - exists (sent_headers r a (-1) digits), p1, p2. split; [now apply sent_user|auto].
Qed.

(** C49: everything a connection writes for requests answered with keep-alive, interim responses included *)
Lemma continue_whole : WholeResponse continue_text 1 1 100 [] [].
Proof.
  apply WR_none; try reflexivity; [|vm_compute; discriminate|apply CL_nil].
  change continue_text with ((lit "HTTP/" ++ lit "1" ++ lit "." ++ lit "1" ++ lit " " ++ lit "100" ++ (SP :: lit "Continue") ++ CRLF) ++ [] ++ CRLF).
  apply RespHd; [|constructor]. apply RespSpec.SL; try (apply dig1; reflexivity); try lia.
  - apply (D_more 10 (lit "10") 10 "0"%char 0); try reflexivity. apply (D_more 10 (lit "1") 1 "0"%char 0); try reflexivity. apply dig1; reflexivity.
  - right. exists (lit "Continue"). auto.
Qed.

(** [Served xs l]: in the log [l] of the connection these requests were answered with these answers and contents, one
    after the other; the answers are [readable] and keep-alive *)
Inductive Served : list (request * answer * bytes) -> list obs -> Prop :=
| Sv_nil : Served [] []
| Sv_snoc xs l r a len ps e major minor : Served xs l -> Answering r a len ps e -> all_sent (framing_of r a len) (total ps) ->
    keeps r a len = true -> readable r a len (concat ps) major minor ->
    (forall hd e', e = OWrite hd :: e' -> blen hd <= RespSpec.max_head - 2) ->
    Served (xs ++ [(r, a, concat ps)]) (l ++ interim r ++ OReady r :: e ++ final_events (framing_of r a len) ++ [OCompleted]).
(** what the client should see: status, user headers and content of each answer, preceded by the interim responses *)
Inductive Sees : list (request * answer * bytes) -> list rev -> Prop :=
| Se_nil : Sees [] []
| Se_snoc xs evs r a content major minor hs : Sees xs evs ->
    filter (fun h => negb (special h)) hs = filter (fun h => negb (special h)) (a_headers a) ->
    Sees (xs ++ [(r, a, content)]) (evs ++ (if expects r then reported 1 1 100 [] [] else []) ++ reported major minor (a_code a) hs content).

Lemma Served_log xs l : Served xs l -> Exchanges (map (fun x => fst (fst x)) xs) l.
Proof.
  induction 1 as [|xs l r a len ps e major minor H IH HA HS HK RB HH]; [constructor|].
  rewrite map_app. cbn [map fst]. apply Ex_snoc; auto. eapply Exch; eauto.
Qed.

Theorem C49_stream xs l p segs : Served xs l -> waiting p -> concat segs = written l ->
  exists p' evs, (forall x, Feed p segs x <-> x = p') /\ hasError p' = false /\ Sees xs evs /\ r_log p' = r_log p ++ evs.
Proof.
  intros S Wp. assert (U : UOk p) by apply (rd_u _ (waiting_ready _ Wp)).
  assert (G : exists p' evs, Feed p [written l] p' /\ waiting p' /\ Sees xs evs /\ r_log p' = r_log p ++ evs).
  { clear segs. induction S as [|xs l r a len ps e major minor S IH HA HS HK RB HH].
    - exists p, []. rewrite app_nil_r. repeat split; auto; [apply Feed_next, Feed_end|constructor].
    - destruct IH as (p1 & evs & F1 & W1 & S1 & L1).
      assert (FR : framing_of r a len <> UntilClose).
      { unfold framing_of, keeps in *. intros Q. destruct (Z.eqb_spec len 0); [discriminate|]. cbn [orb] in Q. rewrite (rb_nohead _ _ _ _ _ _ RB) in Q.
        destruct (Z.ltb_spec 0 len); [discriminate|]. destruct (ConnSpec.chunked_resp r a len); [discriminate|].
        destruct (Z.leb_spec 0 len); [lia|]. rewrite andb_false_r in HK. discriminate. }
      assert (X : exists hd enc, written (OReady r :: e ++ final_events (framing_of r a len) ++ [OCompleted]) = hd ++ enc /\ RespHead r a len hd /\
        Encoded (framing_of r a len) (concat ps) enc /\ blen hd <= RespSpec.max_head - 2).
      { destruct HA as [hd evs' HL HH' HC HM]. pose proof (pieces_written _ _ _ HC) as (_ & _ & HW).
        cbn [written app]. rewrite !written_app. cbn [written]. rewrite app_nil_r.
        exists hd, (written evs' ++ written (final_events (framing_of r a len))). repeat split; auto; [|eapply HH; reflexivity].
        unfold total in HS. pose proof (framing_fixed_pos r a len) as FP.
        destruct (framing_of r a len); cbn in HS |- *; rewrite ?app_nil_r.
        + destruct HW as (-> & ->). cbn. constructor.
        + rewrite HW, <- HS. apply En_fixed. intros E. rewrite E in HS. specialize (FP n eq_refl). cbn in HS. lia.
        + now constructor.
        + congruence. }
      destruct X as (hd & enc & EW & RHd & EN & HL).
      destruct (whole_sent r a len hd (concat ps) enc major minor RHd EN FR RB HL) as (hs & WH & SO & US).
      assert (Y : exists p2, Feed p1 [interim_text r] p2 /\ waiting p2 /\ r_log p2 = r_log p1 ++ (if expects r then reported 1 1 100 [] [] else [])).
      { unfold interim_text. destruct (expects r).
        - destruct (whole_read p1 _ _ _ _ _ _ W1 continue_whole) as (p2 & (D1 & D2 & D3 & D4 & D5) & A & B & _).
          exists p2. assert (F : Feed p1 [continue_text] p2) by (apply (B [continue_text] p2); auto).
          repeat split; auto. eapply waiting_next; [exact W1|exact continue_whole|reflexivity| |exact F]. reflexivity.
        - exists p1. rewrite app_nil_r. repeat split; auto. apply Feed_next, Feed_end. }
      destruct Y as (p2 & F2 & W2 & L2).
      destruct (whole_read p2 _ _ _ _ _ _ W2 WH) as (p3 & (D1 & D2 & D3 & D4 & D5) & A & B & _).
      assert (F3 : Feed p2 [hd ++ enc] p3) by (apply (B [hd ++ enc] p3); auto; cbn; now rewrite app_nil_r).
      exists p3, (evs ++ (if expects r then reported 1 1 100 [] [] else []) ++ reported major minor (a_code a) hs (concat ps)).
      split; [|split; [|split]].
      + assert (F : Feed p ([written l] ++ [interim_text r] ++ [hd ++ enc]) p3).
        { eapply Feed_app; eauto. eapply Feed_app; eauto. apply (rd_u _ (waiting_ready _ W1)). }
        apply (Feed_same p _ p3 _ U F D1); [|reflexivity]. cbn [concat app]. rewrite !app_nil_r, !written_app, written_interim.
        f_equal. f_equal. rewrite <- EW. reflexivity.
      + eapply waiting_next; [exact W2|exact WH|rewrite SO; exact HK| |exact F3]. cbn. now rewrite app_nil_r.
      + now apply Se_snoc.
      + rewrite D5, L2, L1, <- !app_assoc. reflexivity. }
  intros Ec. destruct G as (p' & evs & F & W & Se & L). pose proof (waiting_ready _ W) as R.
  assert (N : hasError p' = false) by (unfold hasError; rewrite (rd_e _ R); reflexivity).
  exists p', evs. split; [|auto]. apply (Feed_same p [written l] p' segs U F N). cbn. now rewrite app_nil_r.
Qed.
