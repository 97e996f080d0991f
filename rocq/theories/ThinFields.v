(** Running the request head parser, actions included, over the text of a well-formed head. *)
From Verif Require Import Bytes ByteHelpers Thin ReqGrammar ThinClasses ThinProofs.
Open Scope Z_scope.
Local Notation "c =a d" := (Ascii.eqb c d) (at level 70).

Definition goto (n : Z) (s : tstate) : tstate := with_tp (set_cs n) s.

Lemma goto_self s n : cs (tp s) = n -> goto n s = s.
Proof. destruct s as [[] ? ?]; cbn; intros ->; reflexivity. Qed.
Lemma goto_goto n m s : goto n (goto m s) = goto n s.
Proof. reflexivity. Qed.
Lemma cs_goto n s : cs (tp (goto n s)) = n.
Proof. reflexivity. Qed.
Lemma goto_act n m buf pos a s : goto n (do_act buf pos a (goto m s)) = goto n (do_act buf pos a s).
Proof. destruct a; reflexivity. Qed.

Lemma trun_cons buf pos c t s : trun buf pos (c :: t) s =
  match tra (cs (tp s)) c with
  | TErr => (goto 0 s, pos)
  | TGo acts n => trun buf (pos + 1) t (goto n (do_acts buf pos acts s))
  | TDone => (with_tp (fun p => set_cs 58 (set_body_start (pos + 1) p)) s, pos + 1)
  end.
Proof. reflexivity. Qed.

Lemma trun_loop n (ok : ascii -> bool) : (forall c, ok c = true -> tra n c = TGo [] n) ->
  forall seg buf pos t s, forallb ok seg = true -> cs (tp s) = n ->
  trun buf pos (seg ++ t) s = trun buf (pos + blen seg) t s.
Proof.
  intros Hn. induction seg as [|c seg IH]; intros buf pos t s Hok Hs.
  - cbn. now rewrite Z.add_0_r.
  - cbn in Hok. apply andb_true_iff in Hok. destruct Hok as [Hc Hok].
    cbn [app]. rewrite trun_cons, Hs, Hn by auto. cbn [do_acts fold_left].
    rewrite goto_self by auto. rewrite IH by auto. rewrite blen_cons. f_equal. lia.
Qed.

Lemma trun_text n n1 n2 n3 (ok : ascii -> bool) : esc_states n n1 n2 n3 ->
  (forall c, ok c = true -> tra n c = TGo [] n) -> tra n "%" = TGo [] n1 ->
  forall seg, Text ok seg -> forall buf pos t s, cs (tp s) = n ->
  trun buf pos (seg ++ t) s = trun buf (pos + blen seg) t s.
Proof.
  intros (E1 & E2 & E3) Hn Hp seg HT. induction HT as [|c x Hc HT IH|a b x Ha Hb HT IH|a b x Ha Hb HT IH];
    intros buf pos t s Hs.
  - cbn. now rewrite Z.add_0_r.
  - cbn [app]. rewrite trun_cons, Hs, Hn by auto. cbn [do_acts fold_left].
    rewrite goto_self by auto. rewrite IH by auto. rewrite blen_cons. f_equal. lia.
  - cbn [app]. rewrite trun_cons, Hs, Hp. cbn [do_acts fold_left].
    rewrite trun_cons, cs_goto, E1, eqb_xdigit_u, Ha by auto. cbn [do_acts fold_left].
    rewrite trun_cons, cs_goto, E2, Hb. cbn [do_acts fold_left].
    rewrite !goto_goto, goto_self by auto. rewrite IH by auto. rewrite !blen_cons. f_equal. lia.
  - cbn [app]. rewrite trun_cons, Hs, Hp. cbn [do_acts fold_left].
    rewrite trun_cons, cs_goto, E1. cbn [do_acts fold_left Ascii.eqb Bool.eqb].
    rewrite trun_cons, cs_goto, E3, Ha. cbn [do_acts fold_left].
    rewrite trun_cons, cs_goto, E2, Hb. cbn [do_acts fold_left].
    rewrite !goto_goto, goto_self by auto. rewrite IH by auto. rewrite !blen_cons. f_equal. lia.
Qed.

(** ** Phases *)

Lemma method_not_sp c : method_char c = true -> (c =a SP) = false.
Proof. destruct c as [[] [] [] [] [] [] [] []]; vm_compute; congruence. Qed.

Lemma run_method_tail buf : forall m k pos t s, forallb method_char m = true -> (k + length m <= 19)%nat ->
  cs (tp s) = mstate k ->
  trun buf pos (m ++ SP :: t) s =
  trun buf (pos + blen m + 1) t (goto 3 (do_act buf (pos + blen m) A_request_method s)).
Proof.
  induction m as [|c m IH]; intros k pos t s Hm Hk Hs.
  - cbn [app]. rewrite trun_cons, Hs.
    assert (E : tra (mstate k) SP = TGo [A_request_method] 3).
    { cbn in Hk. destruct (Nat.eq_dec k 19) as [->|]; [reflexivity|]. rewrite tr_m by lia. reflexivity. }
    rewrite E. cbn [do_acts fold_left]. rewrite blen_nil, !Z.add_0_r. reflexivity.
  - cbn in Hm, Hk. apply andb_true_iff in Hm. destruct Hm as [Hc Hm].
    cbn [app]. rewrite trun_cons, Hs, tr_m, Hc by lia. cbn [do_acts fold_left].
    rewrite IH with (k := S k) by (auto; lia). rewrite goto_act. rewrite blen_cons.
    replace (pos + 1 + blen m) with (pos + (1 + blen m)) by lia. reflexivity.
Qed.

Lemma run_method buf m pos t s : forallb method_char m = true -> (1 <= length m <= 20)%nat ->
  cs (tp s) = 1 ->
  trun buf pos (m ++ SP :: t) s =
  trun buf (pos + blen m + 1) t
    (goto 3 (do_act buf (pos + blen m) A_request_method (do_act buf pos A_mark s))).
Proof.
  destruct m as [|c m]; intros Hm Hl Hs; [cbn in Hl; lia|].
  cbn in Hm, Hl. apply andb_true_iff in Hm. destruct Hm as [Hc Hm].
  cbn [app]. rewrite trun_cons, Hs, tr_1, Hc. cbn [do_acts fold_left].
  rewrite (run_method_tail buf m 0) by (auto; lia). rewrite goto_act, blen_cons.
  replace (pos + 1 + blen m) with (pos + (1 + blen m)) by lia. reflexivity.
Qed.

(* the actions performed while reading a target at [pos] *)
Definition target_eff (buf : bytes) (pos : Z) (tg : target) (s : tstate) : tstate :=
  let e := pos + blen (target_text tg) in
  match tg with
  | Star | Absolute _ _ => do_act buf e A_request_uri (do_act buf pos A_mark s)
  | Origin p None =>
      do_act buf e A_request_uri (do_act buf e A_request_path (do_act buf pos A_mark s))
  | Origin p (Some q) =>
      let pe := pos + 1 + blen p in
      do_act buf e A_request_uri (do_act buf e A_query_string (do_act buf (pe + 1) A_start_query
        (do_act buf pe A_request_path (do_act buf pos A_mark s))))
  end.

Definition sph (c : ascii) : Prop := c = SP \/ c = "#"%char.
Definition after_target (c : ascii) : Z := if c =a SP then 5 else 20.

Lemma uri_loop_26 c : uri_char c = true -> tra 26 c = TGo [] 26.
Proof. destruct c as [[] [] [] [] [] [] [] []]; vm_compute; congruence. Qed.
Lemma uri_loop_35 c : uri_char c = true -> tra 35 c = TGo [] 35.
Proof. destruct c as [[] [] [] [] [] [] [] []]; vm_compute; congruence. Qed.
Lemma uri_loop_21 c : uri_char c = true -> tra 21 c = TGo [] 21.
Proof. destruct c as [[] [] [] [] [] [] [] []]; vm_compute; congruence. Qed.
Lemma path_loop_30 c : path_char c = true -> tra 30 c = TGo [] 30.
Proof. destruct c as [[] [] [] [] [] [] [] []]; vm_compute; congruence. Qed.
Lemma scheme_loop_25 c : scheme_char c = true -> tra 25 c = TGo [] 25.
Proof. destruct c as [[] [] [] [] [] [] [] []]; vm_compute; congruence. Qed.
Lemma scheme_3 c : scheme_char c = true -> tra 3 c = TGo [A_mark] 25.
Proof. destruct c as [[] [] [] [] [] [] [] []]; vm_compute; congruence. Qed.

Lemma run_abs buf r c pos t s : Text uri_char r -> sph c -> cs (tp s) = 26 ->
  trun buf pos (r ++ c :: t) s =
  trun buf (pos + blen r + 1) t (goto (after_target c) (do_act buf (pos + blen r) A_request_uri s)).
Proof.
  intros Hr Hc Hs.
  rewrite (trun_text 26 27 28 29 uri_char esc_26 uri_loop_26 eq_refl r Hr) by auto.
  rewrite trun_cons, Hs. destruct Hc as [-> | ->]; reflexivity.
Qed.

(* the query loop: entered in 34, continued in 35 *)
Lemma run_query buf q c pos t s : Text uri_char q -> sph c -> cs (tp s) = 34 ->
  trun buf pos (q ++ c :: t) s =
  trun buf (pos + blen q + 1) t (goto (after_target c)
    (do_act buf (pos + blen q) A_request_uri (do_act buf (pos + blen q) A_query_string
      (do_act buf pos A_start_query s)))).
Proof.
  intros Hq Hc Hs.
  assert (L : forall x pos s, Text uri_char x -> cs (tp s) = 35 -> trun buf pos (x ++ c :: t) s =
     trun buf (pos + blen x + 1) t (goto (after_target c)
    (do_act buf (pos + blen x) A_request_uri (do_act buf (pos + blen x) A_query_string s)))).
  { clear - Hc. intros x pos s Hx Hs.
    rewrite (trun_text 35 36 37 38 uri_char esc_35 uri_loop_35 eq_refl x Hx) by auto.
    rewrite trun_cons, Hs. destruct Hc as [-> | ->]; reflexivity. }
  assert (G : forall x n s0, goto n (do_act buf x A_request_uri (do_act buf x A_query_string (goto 35 s0)))
     = goto n (do_act buf x A_request_uri (do_act buf x A_query_string s0))) by reflexivity.
  destruct Hq as [|d x Hd Hx|a b x Ha Hb Hx|a b x Ha Hb Hx].
  - cbn [app]. rewrite trun_cons, Hs. rewrite blen_nil, !Z.add_0_r.
    destruct Hc as [-> | ->]; reflexivity.
  - cbn [app]. rewrite trun_cons, Hs.
    assert (E : tra 34 d = TGo [A_start_query] 35).
    { clear - Hd. revert Hd. destruct d as [[] [] [] [] [] [] [] []]; vm_compute; congruence. }
    rewrite E. cbn [do_acts fold_left]. rewrite L by auto. rewrite G, blen_cons.
    replace (pos + 1 + blen x) with (pos + (1 + blen x)) by lia. reflexivity.
  - destruct esc_35 as (E1 & E2 & E3).
    cbn [app]. rewrite trun_cons, Hs. change (tra 34 "%") with (TGo [A_start_query] 36). cbn [do_acts fold_left].
    rewrite trun_cons, cs_goto, E1, eqb_xdigit_u, Ha by auto. cbn [do_acts fold_left].
    rewrite trun_cons, cs_goto, E2, Hb. cbn [do_acts fold_left].
    rewrite L by auto. rewrite !goto_goto, G, !blen_cons.
    replace (pos + 1 + 1 + 1 + blen x) with (pos + (1 + (1 + (1 + blen x)))) by lia. reflexivity.
  - destruct esc_35 as (E1 & E2 & E3).
    cbn [app]. rewrite trun_cons, Hs. change (tra 34 "%") with (TGo [A_start_query] 36). cbn [do_acts fold_left].
    rewrite trun_cons, cs_goto, E1. cbn [do_acts fold_left Ascii.eqb Bool.eqb].
    rewrite trun_cons, cs_goto, E3, Ha. cbn [do_acts fold_left].
    rewrite trun_cons, cs_goto, E2, Hb. cbn [do_acts fold_left].
    rewrite L by auto. rewrite !goto_goto, G, !blen_cons.
    replace (pos + 1 + 1 + 1 + 1 + blen x) with (pos + (1 + (1 + (1 + (1 + blen x))))) by lia. reflexivity.
Qed.

Lemma run_target buf tg c pos t s : wf_target tg -> sph c -> cs (tp s) = 3 ->
  trun buf pos (target_text tg ++ c :: t) s =
  trun buf (pos + blen (target_text tg) + 1) t (goto (after_target c) (target_eff buf pos tg s)).
Proof.
  intros Hw Hc Hs. destruct Hw as [|sc r Hsc Hr|p Hp|p q Hp Hq].
  - cbn [target_text app lit list_ascii_of_string]. rewrite trun_cons, Hs.
    change (tra 3 "*") with (TGo [A_mark] 4). cbn [do_acts fold_left].
    rewrite trun_cons, cs_goto. rewrite tr_4. change (blen ["*"%char]) with 1.
    destruct Hc as [-> | ->]; reflexivity.
  - cbn [target_text]. rewrite <- !app_assoc.
    assert (L : forall x pos s, forallb scheme_char x = true -> cs (tp s) = 25 ->
       trun buf pos (x ++ lit ":" ++ r ++ c :: t) s =
       trun buf (pos + blen x + 1 + blen r + 1) t (goto (after_target c)
         (do_act buf (pos + blen x + 1 + blen r) A_request_uri s))).
    { clear - Hr Hc. intros x pos s Hx Hs.
      rewrite (trun_loop 25 scheme_char scheme_loop_25) by auto.
      cbn [app lit list_ascii_of_string]. rewrite trun_cons, Hs.
      change (tra 25 ":") with (TGo [] 26). cbn [do_acts fold_left].
      rewrite run_abs by auto. rewrite goto_act. reflexivity. }
    destruct sc as [|x sc].
    + cbn [app lit list_ascii_of_string]. rewrite trun_cons, Hs.
      change (tra 3 ":") with (TGo [A_mark] 26). cbn [do_acts fold_left].
      rewrite run_abs by auto. unfold target_eff; cbn [target_text app lit list_ascii_of_string]. rewrite goto_act, blen_cons.
      replace (pos + 1 + blen r) with (pos + (1 + blen r)) by lia. reflexivity.
    + cbn in Hsc. apply andb_true_iff in Hsc. destruct Hsc as [Hx Hsc].
      cbn [app]. rewrite trun_cons, Hs, scheme_3 by auto. cbn [do_acts fold_left].
      rewrite L by auto. unfold target_eff; cbn [target_text app]. rewrite goto_act.
      rewrite blen_cons, !blen_app. change (blen (lit ":")) with 1.
      replace (pos + 1 + blen sc + 1 + blen r) with (pos + (1 + (blen sc + (1 + blen r)))) by lia. reflexivity.
  - cbn [target_text app lit list_ascii_of_string]. rewrite trun_cons, Hs.
    change (tra 3 "/") with (TGo [A_mark] 30). cbn [do_acts fold_left].
    rewrite (trun_text 30 31 32 33 path_char esc_30 path_loop_30 eq_refl p Hp) by auto.
    rewrite trun_cons, cs_goto. unfold target_eff; cbn [target_text app lit list_ascii_of_string].
    rewrite blen_cons. replace (pos + 1 + blen p) with (pos + (1 + blen p)) by lia.
    destruct Hc as [-> | ->]; reflexivity.
  - cbn [target_text app lit list_ascii_of_string]. rewrite <- !app_assoc. cbn [app]. rewrite trun_cons, Hs.
    change (tra 3 "/") with (TGo [A_mark] 30). cbn [do_acts fold_left].
    rewrite (trun_text 30 31 32 33 path_char esc_30 path_loop_30 eq_refl p Hp) by auto.
    rewrite trun_cons, cs_goto. change (tra 30 "?") with (TGo [A_request_path] 34). cbn [do_acts fold_left].
    rewrite run_query by auto. unfold target_eff; cbn [target_text app lit list_ascii_of_string].
    rewrite blen_cons, blen_app, blen_cons.
    replace (pos + (1 + (blen p + (1 + blen q)))) with (pos + 1 + blen p + 1 + blen q) by lia.
    reflexivity.
Qed.

Lemma run_fragment buf f pos t s : Text uri_char f -> cs (tp s) = 20 ->
  trun buf pos (f ++ SP :: t) s =
  trun buf (pos + blen f + 1) t (goto 5 (do_act buf (pos + blen f) A_fragment (do_act buf pos A_mark s))).
Proof.
  intros Hq Hs.
  assert (L : forall x pos s, Text uri_char x -> cs (tp s) = 21 -> trun buf pos (x ++ SP :: t) s =
     trun buf (pos + blen x + 1) t (goto 5 (do_act buf (pos + blen x) A_fragment s))).
  { clear. intros x pos s Hx Hs.
    rewrite (trun_text 21 22 23 24 uri_char esc_21 uri_loop_21 eq_refl x Hx) by auto.
    rewrite trun_cons, Hs. reflexivity. }
  destruct Hq as [|d x Hd Hx|a b x Ha Hb Hx|a b x Ha Hb Hx].
  - cbn [app]. rewrite trun_cons, Hs. rewrite blen_nil, !Z.add_0_r. reflexivity.
  - cbn [app]. rewrite trun_cons, Hs.
    assert (E : tra 20 d = TGo [A_mark] 21).
    { clear - Hd. revert Hd. destruct d as [[] [] [] [] [] [] [] []]; vm_compute; congruence. }
    rewrite E. cbn [do_acts fold_left]. rewrite L by auto. rewrite goto_act, blen_cons.
    replace (pos + 1 + blen x) with (pos + (1 + blen x)) by lia. reflexivity.
  - destruct esc_21 as (E1 & E2 & E3).
    cbn [app]. rewrite trun_cons, Hs. change (tra 20 "%") with (TGo [A_mark] 22). cbn [do_acts fold_left].
    rewrite trun_cons, cs_goto, E1, eqb_xdigit_u, Ha by auto. cbn [do_acts fold_left].
    rewrite trun_cons, cs_goto, E2, Hb. cbn [do_acts fold_left].
    rewrite L by auto. rewrite !goto_goto, goto_act, !blen_cons.
    replace (pos + 1 + 1 + 1 + blen x) with (pos + (1 + (1 + (1 + blen x)))) by lia. reflexivity.
  - destruct esc_21 as (E1 & E2 & E3).
    cbn [app]. rewrite trun_cons, Hs. change (tra 20 "%") with (TGo [A_mark] 22). cbn [do_acts fold_left].
    rewrite trun_cons, cs_goto, E1. cbn [do_acts fold_left Ascii.eqb Bool.eqb].
    rewrite trun_cons, cs_goto, E3, Ha. cbn [do_acts fold_left].
    rewrite trun_cons, cs_goto, E2, Hb. cbn [do_acts fold_left].
    rewrite L by auto. rewrite !goto_goto, goto_act, !blen_cons.
    replace (pos + 1 + 1 + 1 + 1 + blen x) with (pos + (1 + (1 + (1 + (1 + blen x))))) by lia. reflexivity.
Qed.

Lemma digit_loop_11 c : is_digit c = true -> tra 11 c = TGo [] 11.
Proof. destruct c as [[] [] [] [] [] [] [] []]; vm_compute; congruence. Qed.
Lemma digit_loop_13 c : is_digit c = true -> tra 13 c = TGo [] 13.
Proof. destruct c as [[] [] [] [] [] [] [] []]; vm_compute; congruence. Qed.

Lemma run_version buf ma mi pos t s : digits1 ma -> digits1 mi -> cs (tp s) = 5 ->
  trun buf pos (lit "HTTP/" ++ ma ++ lit "." ++ mi ++ CRLF ++ t) s =
  let e := pos + 5 + blen ma + 1 + blen mi in
  trun buf (e + 2) t (goto 15 (do_act buf e A_http_version (do_act buf pos A_mark s))).
Proof.
  intros [Ma1 Ma2] [Mi1 Mi2] Hs.
  destruct ma as [|a ma]; [congruence|]. destruct mi as [|b mi]; [congruence|].
  cbn in Ma2, Mi2. apply andb_true_iff in Ma2. destruct Ma2 as [Ha Hma].
  apply andb_true_iff in Mi2. destruct Mi2 as [Hb Hmi].
  cbn [app lit list_ascii_of_string]. rewrite trun_cons, Hs. change (tra 5 "H") with (TGo [A_mark] 6).
  cbn [do_acts fold_left]. rewrite trun_cons, cs_goto. change (tra 6 "T") with (TGo [] 7).
  cbn [do_acts fold_left]. rewrite trun_cons, cs_goto. change (tra 7 "T") with (TGo [] 8).
  cbn [do_acts fold_left]. rewrite trun_cons, cs_goto. change (tra 8 "P") with (TGo [] 9).
  cbn [do_acts fold_left]. rewrite trun_cons, cs_goto. change (tra 9 "/") with (TGo [] 10).
  cbn [do_acts fold_left]. rewrite trun_cons, cs_goto, tr_10, Ha. cbn [do_acts fold_left].
  rewrite !goto_goto. rewrite (trun_loop 11 is_digit digit_loop_11) by auto.
  rewrite trun_cons, cs_goto. change (tra 11 ".") with (TGo [] 12).
  cbn [do_acts fold_left]. rewrite trun_cons, cs_goto, tr_12, Hb. cbn [do_acts fold_left].
  rewrite (trun_loop 13 is_digit digit_loop_13) by auto.
  unfold CRLF; cbn [app]. rewrite trun_cons, cs_goto. change (tra 13 CR) with (TGo [A_http_version] 14).
  cbn [do_acts fold_left]. rewrite trun_cons, cs_goto. change (tra 14 LF) with (TGo [] 15).
  cbn [do_acts fold_left]. rewrite !goto_goto, goto_act. cbv zeta.
  rewrite !blen_cons.
  replace (pos + 1 + 1 + 1 + 1 + 1 + 1 + blen ma + 1 + 1 + blen mi)
    with (pos + 5 + (1 + blen ma) + 1 + (1 + blen mi)) by lia.
  replace (pos + 5 + (1 + blen ma) + 1 + (1 + blen mi) + 2) with
   (pos + 5 + (1 + blen ma) + 1 + (1 + blen mi) + 1 + 1) by lia. reflexivity.
Qed.

Lemma token_15 c : token_char c = true -> tra 15 c = TGo [A_start_field] 17.
Proof. destruct c as [[] [] [] [] [] [] [] []]; vm_compute; congruence. Qed.
Lemma token_17 c : token_char c = true -> tra 17 c = TGo [] 17.
Proof. destruct c as [[] [] [] [] [] [] [] []]; vm_compute; congruence. Qed.

Definition hline_eff (buf : bytes) (pos : Z) (h : hline) (s : tstate) : tstate :=
  let v := pos + blen (hname h) + 1 + Z.of_nat (hpad h) in
  do_act buf (v + blen (hvalue h)) A_write_value (do_act buf v A_mark
    (do_act buf (pos + blen (hname h)) A_write_field (do_act buf pos A_start_field s))).

Lemma run_pad buf n : forall pos c t s, c <> SP -> cs (tp s) = 18 ->
  exists m, trun buf pos (repeat SP n ++ c :: t) s =
  trun buf (pos + Z.of_nat n) (c :: t) (do_act buf m A_mark s) /\ (n = 0%nat -> m = mark (tp s)).
Proof.
  induction n as [|n IH]; intros pos c t s Hc Hs.
  - exists (mark (tp s)). cbn [repeat app]. rewrite Z.add_0_r.
    split; auto. f_equal. destruct s as [[] ? ?]; reflexivity.
  - cbn [repeat app]. rewrite trun_cons, Hs. change (tra 18 SP) with (TGo [A_mark] 18).
    cbn [do_acts fold_left].
    destruct (IH (pos + 1) c t (goto 18 (do_act buf pos A_mark s)) Hc eq_refl) as (m & E & _).
    exists m. split; [|discriminate]. rewrite E.
    replace (pos + 1 + Z.of_nat n) with (pos + Z.of_nat (S n)) by lia.
    f_equal. destruct s as [[] ? ?]; cbn in *; subst; reflexivity.
Qed.

Lemma run_value_tail buf v : forall pos t s, (forall c, In c v -> c <> CR) -> cs (tp s) = 19 ->
  trun buf pos (v ++ CRLF ++ t) s =
  trun buf (pos + blen v + 2) t (goto 15 (do_act buf (pos + blen v) A_write_value s)).
Proof.
  intros pos t s Hv Hs.
  rewrite (trun_loop 19 (fun c => negb (c =a CR))); auto.
  - unfold CRLF; cbn [app]. rewrite trun_cons, Hs. change (tra 19 CR) with (TGo [A_write_value] 14).
    cbn [do_acts fold_left]. rewrite trun_cons, cs_goto. change (tra 14 LF) with (TGo [] 15).
    cbn [do_acts fold_left]. rewrite goto_goto. f_equal. lia.
  - intros c Hc. rewrite tr_19. apply negb_true_iff in Hc. now rewrite Hc.
  - apply forallb_forall. intros c Hc. apply Hv in Hc. apply negb_true_iff, Ascii.eqb_neq. auto.
Qed.

Lemma run_hline buf h pos t s : wf_hline h -> cs (tp s) = 15 ->
  trun buf pos (hline_text h ++ t) s =
  trun buf (pos + blen (hline_text h)) t (goto 15 (hline_eff buf pos h s)).
Proof.
  destruct h as [n p v]; intros (Hn1 & Hn2 & Hv & Hsp) Hs; cbn [hname hpad hvalue] in *.
  unfold hline_text, hline_eff; cbn [hname hpad hvalue].
  assert (Len : blen (n ++ lit ":" ++ repeat SP p ++ v ++ CRLF) = blen n + 1 + Z.of_nat p + blen v + 2).
  { rewrite !blen_app. change (blen (lit ":")) with 1. change (blen CRLF) with 2.
    unfold blen at 2. rewrite repeat_length. lia. }
  rewrite Len. clear Len.
  destruct n as [|a n]; [congruence|]. cbn in Hn2. apply andb_true_iff in Hn2. destruct Hn2 as [Ha Hn].
  rewrite <- !app_assoc. cbn [app]. rewrite trun_cons, Hs, token_15 by auto. cbn [do_acts fold_left].
  rewrite (trun_loop 17 token_char token_17) by auto.
  cbn [app lit list_ascii_of_string]. rewrite trun_cons, cs_goto. change (tra 17 ":") with (TGo [A_write_field] 18).
  cbn [do_acts fold_left]. rewrite goto_act, blen_cons.
  set (s1 := do_act buf (pos + 1 + blen n) A_write_field (do_act buf pos A_start_field s)).
  destruct v as [|x v].
  - destruct (run_pad buf p (pos + 1 + blen n + 1) CR (LF :: t) (goto 18 s1) ltac:(discriminate) eq_refl)
      as (m & E & _).
    unfold CRLF; cbn [app]. rewrite E.
    rewrite trun_cons. change (cs (tp (do_act buf m A_mark (goto 18 s1)))) with 18.
    change (tra 18 CR) with (TGo [A_mark; A_write_value] 14). cbn [do_acts fold_left].
    rewrite trun_cons, cs_goto. change (tra 14 LF) with (TGo [] 15). cbn [do_acts fold_left].
    rewrite goto_goto, blen_nil, ?Z.add_0_r.
    replace (pos + (1 + blen n)) with (pos + 1 + blen n) by lia. fold s1.
    replace (pos + 1 + blen n + 1 + Z.of_nat p + 1 + 1) with (pos + (1 + blen n + 1 + Z.of_nat p + 2)) by lia.
    reflexivity.
  - assert (Hx : x <> SP) by (intros ->; eapply Hsp; reflexivity).
    assert (Hx' : x <> CR) by (apply Hv; left; auto).
    destruct (run_pad buf p (pos + 1 + blen n + 1) x (v ++ CRLF ++ t) (goto 18 s1) Hx eq_refl)
      as (m & E & _).
    cbn [app]. rewrite E.
    rewrite trun_cons. change (cs (tp (do_act buf m A_mark (goto 18 s1)))) with 18.
    rewrite tr_18. apply Ascii.eqb_neq in Hx, Hx'. rewrite Hx, Hx'. cbn [do_acts fold_left].
    rewrite run_value_tail by (auto; intros c Hc; apply Hv; right; auto).
    replace (pos + (1 + blen n)) with (pos + 1 + blen n) by lia. fold s1. rewrite goto_act, blen_cons.
    replace (pos + 1 + blen n + 1 + Z.of_nat p + 1 + blen v + 2)
      with (pos + (1 + blen n + 1 + Z.of_nat p + (1 + blen v) + 2)) by lia.
    f_equal.
    replace (pos + 1 + blen n + 1 + Z.of_nat p + 1 + blen v) with (pos + 1 + blen n + 1 + Z.of_nat p + (1 + blen v)) by lia.
    reflexivity.
Qed.

(** ** What a whole head does *)

(* where the header lines of [hs] lie, the first one starting at [pos] *)
Fixpoint line_refs (pos : Z) (hs : list hline) : list href :=
  match hs with
  | [] => []
  | h :: t => mkHref pos (blen (hname h)) (pos + blen (hname h) + 1 + Z.of_nat (hpad h)) (blen (hvalue h))
              :: line_refs (pos + blen (hline_text h)) t
  end.

(* index of the last header called content-length, counting from [n]; [d] if there is none *)
Fixpoint last_cl (n : Z) (d : Z) (hs : list hline) : Z :=
  match hs with
  | [] => d
  | h :: t => last_cl (n + 1) (if asciiEqualsCI (hname h) (lit "content-length") then n else d) t
  end.

(* the request line part of the parser *)
Definition same_line (p q : tparser) : Prop :=
  body_start p = body_start q /\ nread p = nread q /\
  rm_start p = rm_start q /\ rm_len p = rm_len q /\ uri_start p = uri_start q /\ uri_len p = uri_len q /\
  frag_start p = frag_start q /\ frag_len p = frag_len q /\ path_start p = path_start q /\
  path_len p = path_len q /\ qs_start p = qs_start q /\ qs_len p = qs_len q /\
  ver_start p = ver_start q /\ ver_len p = ver_len q.
Lemma same_line_refl p : same_line p p. Proof. repeat split. Qed.
Lemma same_line_trans p q r : same_line p q -> same_line q r -> same_line p r.
Proof. unfold same_line; intuition congruence. Qed.

Lemma asciiEqualsCI_length a b : asciiEqualsCI a b = true -> length a = length b.
Proof.
  unfold asciiEqualsCI. destruct (Nat.eqb_spec (length a) (length b)); cbn; [auto|discriminate].
Qed.

Lemma run_headers buf : forall hs pre t s pos,
  Forall wf_hline hs -> cs (tp s) = 15 -> pos = blen pre ->
  buf = pre ++ concat (map hline_text hs) ++ t ->
  exists s', trun buf pos (concat (map hline_text hs) ++ t) s =
    trun buf (pos + blen (concat (map hline_text hs))) t s' /\
    cs (tp s') = 15 /\ same_line (tp s') (tp s) /\
    refs s' = refs s ++ line_refs pos hs /\
    cl_index s' = last_cl (Z.of_nat (length (refs s))) (cl_index s) hs.
Proof.
  induction hs as [|h hs IH]; intros pre t s pos Hw Hs Hpos Hbuf.
  - exists s. cbn. rewrite Z.add_0_r, app_nil_r. repeat split; auto.
  - inversion Hw as [|? ? Hh Hhs]; subst x l.
    cbn [map concat] in *. rewrite <- !app_assoc in *.
    rewrite run_hline by auto.
    set (s1 := goto 15 (hline_eff buf pos h s)).
    destruct (IH (pre ++ hline_text h) t s1 (pos + blen (hline_text h))) as (s' & E & Hcs & Hsl & Hr & Hi); auto.
    { rewrite Hpos, blen_app. reflexivity. }
    { rewrite <- !app_assoc. exact Hbuf. }
    exists s'. rewrite E. rewrite blen_app, Z.add_assoc. split; [reflexivity|].
    split; [exact Hcs|]. split; [|split].
    + eapply same_line_trans; [exact Hsl|]. repeat split.
    + rewrite Hr. unfold s1, hline_eff, goto, with_tp.
      cbn [refs do_act http_field_cb tp mark field_start field_len]. rewrite <- app_assoc. cbn [app line_refs].
      repeat f_equal; lia.
    + rewrite Hi. unfold s1, hline_eff, goto, with_tp.
      cbn [cl_index refs do_act http_field_cb tp mark field_start field_len].
      rewrite app_length. cbn [length last_cl].
      replace (Z.of_nat (length (refs s) + 1)) with (Z.of_nat (length (refs s)) + 1) by lia.
      f_equal. replace (pos + blen (hname h) - pos) with (blen (hname h)) by lia.
      destruct (Z.eqb_spec (blen (hname h)) 14) as [E14|E14]; cbn [andb].
      * assert (Sl : slice buf pos 14 = hname h).
        { rewrite <- E14, Hbuf, Hpos. unfold hline_text. rewrite <- !app_assoc. apply slice_mid. }
        rewrite Sl. reflexivity.
      * destruct (asciiEqualsCI (hname h) (lit "content-length")) eqn:Eci; auto.
        apply asciiEqualsCI_length in Eci. unfold blen in E14. rewrite Eci in E14. cbn in E14. lia.
Qed.

(** offsets of the parts of a head at offset 0 *)
Definition o_target (h : head) : Z := blen (hd_method h) + 1.
Definition o_target_end (h : head) : Z := o_target h + blen (target_text (hd_target h)).
Definition o_version (h : head) : Z := o_target_end h + blen (fragment_text h) + 1.
Definition o_version_end (h : head) : Z := o_version h + blen (version_text h).
Definition o_headers (h : head) : Z := o_version_end h + 2.
Definition o_body (h : head) : Z := blen (head_text h).

Lemma o_body_eq h : o_body h = o_headers h + blen (concat (map hline_text (hd_headers h))) + 2.
Proof.
  unfold o_body, o_headers, o_version_end, o_version, o_target_end, o_target, head_text.
  rewrite !blen_app. change (blen (lit " ")) with 1. change (blen CRLF) with 2. lia.
Qed.

(** What the parser knows after a complete head (everything but scratch fields). *)
Record head_parsed (h : head) (s : tstate) : Prop := mkHP {
  hp_cs : cs (tp s) = 58;
  hp_body : body_start (tp s) = o_body h;
  hp_rm : rm_start (tp s) = 0 /\ rm_len (tp s) = blen (hd_method h);
  hp_uri : uri_start (tp s) = o_target h /\ uri_len (tp s) = blen (target_text (hd_target h));
  hp_frag : frag_len (tp s) = blen (spec_fragment h) /\
            (hd_fragment h <> None -> frag_start (tp s) = o_target_end h + 1);
  hp_path : path_len (tp s) = blen (spec_path (hd_target h)) /\
            (spec_path (hd_target h) <> [] -> path_start (tp s) = o_target h);
  hp_query : qs_len (tp s) = blen (spec_query (hd_target h)) /\
            (spec_query (hd_target h) <> [] ->
             qs_start (tp s) = o_target h + blen (spec_path (hd_target h)) + 1);
  hp_ver : ver_start (tp s) = o_version h /\ ver_len (tp s) = blen (version_text h);
  hp_refs : refs s = line_refs (o_headers h) (hd_headers h);
  hp_cl : cl_index s = last_cl 0 (-1) (hd_headers h) }.

(* the state just after transitionToReceivingHeaders *)
Definition ts_init (p : tparser) : tstate := mkTS (tp_init p) [] (-1).

Theorem trun_head h p0 rest : wf_head h ->
  exists s', trun (head_text h ++ rest) 0 (head_text h ++ rest) (ts_init p0) = (s', o_body h) /\
    head_parsed h s' /\ nread (tp s') = 0.
Proof.
  intros W. set (buf := head_text h ++ rest).
  destruct W as [Wm Wml Wt Wf Wma Wmi Wh].
  assert (T : buf = hd_method h ++ SP :: (target_text (hd_target h) ++ fragment_text h ++ SP ::
    (lit "HTTP/" ++ hd_major h ++ lit "." ++ hd_minor h ++ CRLF ++
      (concat (map hline_text (hd_headers h)) ++ (CRLF ++ rest))))).
  { unfold buf, head_text, version_text. rewrite <- !app_assoc. reflexivity. }
  pose (s1 := goto 3 (do_act buf (blen (hd_method h)) A_request_method (do_act buf 0 A_mark (ts_init p0)))).
  pose (s2 := target_eff buf (o_target h) (hd_target h) s1).
  pose (s3 := match hd_fragment h with
        | None => goto 5 s2
        | Some f => goto 5 (do_act buf (o_target_end h + 1 + blen f) A_fragment
                      (do_act buf (o_target_end h + 1) A_mark s2)) end).
  assert (E1 : trun buf 0 buf (ts_init p0) = trun buf (o_version h)
    (lit "HTTP/" ++ hd_major h ++ lit "." ++ hd_minor h ++ CRLF ++
      (concat (map hline_text (hd_headers h)) ++ (CRLF ++ rest))) s3).
  { rewrite T at 2. rewrite run_method by auto. rewrite Z.add_0_l. fold s1. fold (o_target h).
    assert (Hf : exists c t, fragment_text h ++ SP :: (lit "HTTP/" ++ hd_major h ++ lit "." ++ hd_minor h ++ CRLF ++
      (concat (map hline_text (hd_headers h)) ++ (CRLF ++ rest))) = c :: t /\ sph c /\
      c = match hd_fragment h with None => SP | Some _ => "#"%char end /\
      t = match hd_fragment h with None => [] | Some f => f ++ [SP] end ++ (lit "HTTP/" ++ hd_major h ++ lit "." ++ hd_minor h ++ CRLF ++
      (concat (map hline_text (hd_headers h)) ++ (CRLF ++ rest)))).
    { unfold fragment_text. destruct (hd_fragment h) as [f|].
      - eexists _, _. cbn [app lit list_ascii_of_string]. split; [reflexivity|]. split; [right; reflexivity|]. split; auto.
        rewrite <- app_assoc. reflexivity.
      - eexists _, _. cbn [app]. split; [reflexivity|]. split; [left; reflexivity|]. auto. }
    destruct Hf as (c & t & -> & Hc & Ec & Et).
    rewrite run_target by auto. fold (o_target_end h). fold s2.
    unfold s3, o_version, fragment_text. subst c t. destruct (hd_fragment h) as [f|] eqn:Ef.
    - rewrite <- app_assoc. cbn [app]. change (after_target "#") with 20.
      rewrite run_fragment by auto. cbn [app lit list_ascii_of_string]. rewrite blen_cons.
      f_equal. lia.
    - change (after_target SP) with 5. rewrite blen_nil. cbn [app]. f_equal. lia. }
  rewrite E1. clear E1.
  assert (C3 : cs (tp s3) = 5) by (unfold s3; destruct (hd_fragment h); reflexivity).
  rewrite run_version by auto. cbv zeta.
  assert (Lv : o_version h + 5 + blen (hd_major h) + 1 + blen (hd_minor h) = o_version_end h).
  { unfold o_version_end, version_text. rewrite !blen_app.
    change (blen (lit "HTTP/")) with 5. change (blen (lit ".")) with 1. lia. }
  rewrite Lv. fold (o_headers h).
  set (s4 := goto 15 _).
  pose (pre := hd_method h ++ SP :: (target_text (hd_target h) ++ fragment_text h ++ SP ::
    (lit "HTTP/" ++ hd_major h ++ lit "." ++ hd_minor h ++ CRLF))).
  destruct (run_headers buf (hd_headers h) pre (CRLF ++ rest) s4 (o_headers h)) as (s5 & E5 & C5 & L5 & R5 & I5); auto.
  { unfold pre, o_headers, o_version_end, o_version, o_target_end, o_target, version_text.
    rewrite ?blen_app, ?blen_cons, ?blen_app, ?blen_cons, ?blen_app. change (blen CRLF) with 2.
    change (blen (lit "HTTP/")) with 5. change (blen (lit ".")) with 1. lia. }
  { rewrite T. unfold pre. rewrite <- ?app_assoc. cbn [app]. rewrite <- ?app_assoc. cbn [app].
    rewrite <- ?app_assoc. reflexivity. }
  rewrite E5. clear E5.
  unfold CRLF at 1; cbn [app]. rewrite trun_cons, C5. change (tra 15 CR) with (TGo [] 16). cbn [do_acts fold_left].
  rewrite trun_cons, cs_goto. change (tra 16 LF) with TDone. cbv match.
  eexists. split; [f_equal; rewrite o_body_eq; lia|].
  assert (P4 : forall P : tparser -> Prop, P (tp s4) -> P (tp s4)) by auto.
  destruct L5 as (B5 & N5 & A1 & A2 & A3 & A4 & A5 & A6 & A7 & A8 & A9 & A10 & A11 & A12).
  assert (RI : refs s3 = [] /\ cl_index s3 = -1 /\ nread (tp s3) = 0 /\
     rm_start (tp s3) = 0 /\ rm_len (tp s3) = blen (hd_method h)).
  { unfold s3, s2, s1, target_eff.
    destruct (hd_fragment h); destruct (hd_target h) as [|sc r|p [q|]]; cbn; repeat split; lia. }
  destruct RI as (RI1 & RI2 & RI3 & RI4 & RI5).
  assert (Q4 : refs s4 = [] /\ cl_index s4 = -1 /\ nread (tp s4) = 0) by (repeat split; assumption).
  destruct Q4 as (Q41 & Q42 & Q43).
  split.
  - constructor; cbn [tp with_tp set_cs set_body_start cs body_start rm_start rm_len uri_start uri_len
       frag_start frag_len path_start path_len qs_start qs_len ver_start ver_len goto refs cl_index].
    + reflexivity.
    + rewrite o_body_eq. lia.
    + rewrite A1, A2. exact (conj RI4 RI5).
    + rewrite A3, A4. clear. unfold s4, s3, s2, s1, target_eff.
      destruct (hd_fragment h); destruct (hd_target h) as [|sc r|p [q|]]; cbn -[blen Z.add Z.sub target_text]; split; lia.
    + rewrite A5, A6. clear. unfold s4, s3, spec_fragment.
      destruct (hd_fragment h); [cbn -[blen Z.add Z.sub o_target_end]; split; [lia|auto]|].
      split; [|congruence]. unfold s2, s1, target_eff.
      destruct (hd_target h) as [|sc r|p [q|]]; reflexivity.
    + rewrite A7, A8. clear. unfold s4, s3, s2, s1, target_eff.
      destruct (hd_fragment h); destruct (hd_target h) as [|sc r|p [q|]];
       cbn -[blen Z.add Z.sub spec_path]; (split; [|auto; try (intros N; exfalso; apply N; reflexivity)]);
       cbn [spec_path target_text app lit list_ascii_of_string];
       rewrite ?blen_cons, ?blen_app, ?blen_nil; change (blen ["/"%char]) with 1; try reflexivity; lia.
    + rewrite A9, A10. clear. unfold s4, s3, s2, s1, target_eff.
      destruct (hd_fragment h); destruct (hd_target h) as [|sc r|p [q|]];
       cbn -[blen Z.add Z.sub spec_path]; (split; [|try (intros N; exfalso; apply N; reflexivity)]);
       cbn [spec_path target_text app lit list_ascii_of_string];
       rewrite ?blen_cons, ?blen_app, ?blen_nil, ?blen_cons; try reflexivity; try intros _;
       cbn [spec_path target_text app lit list_ascii_of_string];
       rewrite ?blen_cons; lia.
    + rewrite A11, A12. subst s4. unfold o_version_end. cbn -[blen Z.add Z.sub]. split; [reflexivity|lia].
    + rewrite R5, Q41. reflexivity.
    + rewrite I5, Q41, Q42. reflexivity.
  - cbn. now rewrite N5.
Qed.
