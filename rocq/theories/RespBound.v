(** How much the response parser takes without reporting anything. *)
From Verif Require Import Bytes Joyent RespParser RespInv RespSplit RespFeed RespSpec RespSize.
Open Scope Z_scope.

Notation M := HTTP_MAX_HEADER_SIZE.
(* the bytes that can still be taken without a report *)
Definition pot (h : hparser) : Z :=
  match h_state h with
  | s_chunk_data_almost_done => 2 * M + 2
  | s_chunk_data_done | s_headers_done => 2 * M + 1
  | s_chunk_size_start | s_chunk_size | s_chunk_parameters | s_chunk_size_almost_done => 2 * M - h_nread h
  | s_chunk_data | s_body_identity | s_body_identity_eof | s_message_done => 0
  | _ => M - h_nread h
  end.
Definition NR (h : hparser) : Prop := 0 <= h_nread h <= M.
Definition left (l : locals) : Z := blen (l_data l) - (if l_re l then 1 else 0).
Definition nobody (l : locals) : Prop := l_body l = None.
Definition soft (c : cb) : Prop := match c with CbBegin | CbField _ | CbValue _ => True | _ => False end.
Definition Potted (h : hparser) (l : locals) (res : jres) : Prop :=
  match res with
  | Next h' l' => NR h' /\ (nobody l' -> pot h' + left l <= pot h + left l')
  | Call c h' l' er => NR h' /\ (soft c -> nobody l' -> pot h' + left l <= pot h + left l')
  | _ => True
  end.
Lemma NR_pos h : NR h -> 0 <= h_nread h <= M.
Proof. auto. Qed.
Lemma M_pos : 0 < M.
Proof. reflexivity. Qed.
Opaque HTTP_MAX_HEADER_SIZE.
Definition bonus (h : hparser) : Z := match h_state h with s_headers_done | s_chunk_data_done | s_chunk_data_almost_done | s_chunk_data | s_body_identity | s_body_identity_eof | s_message_done => 1 | _ => 0 end.
Definition Byted (n : Z) (h : hparser) (res : jres) : Prop :=
  match res with
  | Next h' l' => NR h' /\ (nobody l' -> left l' = n /\ pot h' + bonus h <= pot h)
  | Call c h' l' er => NR h' /\ (soft c -> nobody l' -> left l' = n /\ pot h' + bonus h <= pot h)
  | _ => True
  end.
Lemma first_nread ch h h' : value_first ch h = Some h' -> h_nread h' = h_nread h /\ h_state h' = h_state h.
Proof. unfold value_first. destruct (h_hs h); try (destruct (negb (IS_NUM ch)); [discriminate|]); intros X; injection X as <-; auto. Qed.
Lemma step_nread ch h h' : value_step ch h = VOk h' -> h_nread h' = h_nread h /\ h_state h' = h_state h.
Proof.
  unfold value_step, value_word. destruct (h_hs h); try discriminate; try (destruct (match_word _ _ _ _ _)); intros X;
    repeat match type of X with (if ?b then _ else _) = _ => destruct b; try discriminate end; injection X as <-; auto; destruct (negb (ceq ch SP)); auto.
Qed.
Lemma flags_nread h : h_nread (header_flags h) = h_nread h /\ h_state (header_flags h) = h_state h.
Proof. unfold header_flags. destruct (h_hs h); auto. Qed.
Lemma jbyte_pot ch rest h l : NR h -> l_data l = ch :: rest -> Byted (blen rest) h (jbyte ch h l).
Proof.
  intros N D. pose proof N as [N1 N2]. pose proof M_pos as MP. destruct l as [d f v b re]; cbn [l_data l_field l_value l_body l_re] in *. subst d.
  assert (L : forall f v b, left (mkL rest f v b false) = blen rest) by (intros; unfold left; cbn [l_data l_re]; lia).
  assert (L2 : forall f v b, left (mkL (ch :: rest) f v b true) = blen rest) by (intros; unfold left; cbn [l_data l_re]; rewrite blen_cons; lia).
  unfold jbyte. destruct (h_state h) eqn:S; unfold data_field, data_value, data_body, notify, brk, reexec, err, advance, again, mark_field, mark_value, no_field, no_value, no_body, mark, new_message;
    cbn [l_data l_field l_value l_body l_re moved option_map].
  all: try (repeat match goal with |- context [match ?x with _ => _ end] => first [is_var x; destruct x | destruct x eqn:?] end;
    repeat match goal with X : value_first _ _ = Some _ |- _ => apply first_nread in X | X : value_step _ _ = VOk _ |- _ => apply step_nread in X end;
    cbn [Byted soft option_map moved]; try exact Logic.I;
    unfold NR, pot, bonus; hsimp in *; rewrite ?(proj1 (flags_nread _)), ?(proj2 (flags_nread _)); hsimp in *; rewrite ?S;
    repeat match goal with X : h_nread _ = _ /\ h_state _ = _ |- _ => let A := fresh in let B := fresh in destruct X as [A B]; rewrite ?A, ?B; rewrite ?S end;
    (split; [lia|try (intros []; fail); try intros _; try (intros _); (split; [auto|lia])]); fail).
  - destruct (negb (f_chunked h) || (h_cl h =? 0) || (h_cl h =? ULLONG_MAX)); [exact Logic.I|]. cbn [Byted].
    split; [destruct (h_cl _ =? 0); exact N|]. discriminate.
  - destruct ((h_cl h =? 0) || (h_cl h =? ULLONG_MAX)); [exact Logic.I|]. destruct (h_cl _ =? 0); cbn [Byted soft]; (split; [exact N|]); [contradiction|discriminate].
  - cbn [Byted]. split; [exact N|]. discriminate.
Qed.
Lemma jstep_pot h l : l_data l <> [] -> NR h -> Potted h l (jstep h l).
Proof.
  intros D N.
  unfold jstep. destruct (l_data l) as [|ch rest] eqn:E; [congruence|]. clear D. pose proof M_pos as MP.
  assert (LL : l_re l = false -> left l = blen rest + 1) by (intros R; unfold left; rewrite R, E, blen_cons; lia).
  assert (LR : l_re l = true -> left l = blen rest) by (intros R; unfold left; rewrite R, E, blen_cons; lia).
  destruct (l_re l) eqn:R.
  - pose proof (jbyte_pot ch rest h l N E) as B. assert (0 <= bonus h) by (unfold bonus; destruct (h_state h); lia). specialize (LR eq_refl).
    destruct (jbyte ch h l); cbn [Byted Potted] in *; try exact Logic.I; (split; [apply B|]); destruct B as [_ B]; intros; rewrite LR; [destruct B as [-> B]; auto; lia|destruct B as [-> B]; auto; lia].
  - specialize (LL eq_refl). destruct (parsing_header (h_state h)) eqn:P.
    + cbn zeta. destruct (Z.ltb_spec M (h_nread (hset_nread (h_nread h + 1) h))) as [O|O]; [exact Logic.I|].
      assert (N' : NR (hset_nread (h_nread h + 1) h)) by (unfold NR in *; hsimp in *; lia).
      pose proof (jbyte_pot ch rest _ l N' E) as B.
      assert (X : pot (hset_nread (h_nread h + 1) h) - bonus (hset_nread (h_nread h + 1) h) + 1 <= pot h).
      { unfold pot, bonus. hsimp. destruct (h_state h); try discriminate; lia. }
      destruct (jbyte ch _ l); cbn [Byted Potted] in *; try exact Logic.I; (split; [apply B|]); destruct B as [_ B]; intros; rewrite LL; [destruct B as [-> B]; auto; lia|destruct B as [-> B]; auto; lia].
    + pose proof (jbyte_pot ch rest h l N E) as B.
      assert (X : bonus h = 1) by (unfold bonus; destruct (h_state h); try discriminate; reflexivity).
      destruct (jbyte ch h l); cbn [Byted Potted] in *; try exact Logic.I; (split; [apply B|]); destruct B as [_ B]; intros; rewrite LL; [destruct B as [-> B]; auto; lia|destruct B as [-> B]; auto; lia].
Qed.

(** content that was taken is reported *)
Definition full (l : locals) : Prop := l_body l <> Some [].
Definition Kept (l : locals) (res : jres) : Prop :=
  match res with
  | Next _ l' => full l' /\ (l_body l <> None -> l_body l' <> None)
  | Call c _ l' _ => full l' /\ (forall b, c = CbBody b -> b <> []) /\ (l_body l <> None -> ~ soft c)
  | _ => True
  end.
Lemma jbyte_kept ch rest h l : SPre h l -> l_data l = ch :: rest -> full l -> Kept l (jbyte ch h l).
Proof.
  intros [Hb HC] D F. destruct l as [d f v b re]; cbn [l_data l_field l_value l_body l_re] in *. subst d. unfold full in F. cbn [l_body] in F.
  unfold jbyte. destruct (h_state h) eqn:S; unfold data_field, data_value, data_body, notify, brk, reexec, err, advance, again, mark_field, mark_value, no_field, no_value, no_body, mark, new_message;
    cbn [l_data l_field l_value l_body l_re moved option_map]; try (destruct b as [b|]; [specialize (Hb eq_refl); discriminate|]).
  all: try (repeat match goal with |- context [match ?x with _ => _ end] => first [is_var x; destruct x | destruct x eqn:?] end;
    cbn [Kept soft option_map moved]; try exact Logic.I; unfold full; cbn [l_body];
    repeat match goal with |- _ /\ _ => split end; try discriminate; try congruence; try (intros ? X; discriminate); try (intros X; congruence); fail).
  all: assert (NB : forall k, (0 < k)%nat -> (match b with Some b0 => b0 ++ firstn k (ch :: rest) | None => firstn k (ch :: rest) end) <> [])
    by (intros [|k] K; [lia|]; cbn [firstn]; destruct b as [[|? ?]|]; discriminate).
  - specialize (HC (or_intror eq_refl)). destruct (negb (f_chunked h) || (h_cl h =? 0) || (h_cl h =? ULLONG_MAX)); [exact Logic.I|]. cbn [Kept]. unfold full. cbn [l_body].
    split; [|discriminate]. intros X. injection X as X. revert X. apply NB. rewrite blen_cons. pose proof (blen_pos rest). lia.
  - destruct (negb (f_chunked h) || negb (h_cl h =? 0)); [exact Logic.I|]. destruct (ceq ch CR); [|exact Logic.I]. destruct b as [b|]; cbn [Kept soft]; unfold full; cbn [l_body].
    + split; [discriminate|]. split; [intros b0 X; injection X as <-; intros Y; subst b; now apply F|]. intros _ [].
    + split; [discriminate|intros X; destruct X; reflexivity].
  - specialize (HC (or_introl eq_refl)). assert (K : (0 < Z.to_nat (Z.min (h_cl h) (blen (ch :: rest))))%nat) by (rewrite blen_cons; pose proof (blen_pos rest); lia).
    destruct ((h_cl h =? 0) || (h_cl h =? ULLONG_MAX)); [exact Logic.I|]. destruct (h_cl _ =? 0); cbn [Kept soft]; unfold full; cbn [l_body].
    + split; [discriminate|]. split; [intros b0 X; injection X as <-; now apply NB|]. intros _ [].
    + split; [|discriminate]. intros X. injection X as X. revert X. now apply NB.
  - cbn [Kept]. unfold full. cbn [l_body]. split; [|discriminate]. destruct b as [[|? ?]|]; discriminate.
Qed.
Lemma jstep_kept h l : JOk h l -> l_data l <> [] -> full l -> Kept l (jstep h l).
Proof.
  intros HJ D F. pose proof (jok_pre _ _ HJ) as P. unfold jstep. destruct (l_data l) as [|ch rest] eqn:E; [congruence|].
  destruct (l_re l); [now apply jbyte_kept with rest|]. destruct (parsing_header (h_state h)); [|now apply jbyte_kept with rest].
  cbn zeta. destruct (M <? _); [exact Logic.I|]. apply jbyte_kept with rest; auto.
Qed.
Definition silent (lg : list rev) : Prop := Forall (fun e => e = RBegin) lg.
Lemma silent_app a b : silent (a ++ b) <-> silent a /\ silent b.
Proof. apply Forall_app. Qed.
Lemma on_cb_silent c r : exists lg, r_log (on_cb c r) = r_log r ++ lg /\ (silent lg -> soft c \/ c = CbBody []).
Proof.
  destruct c as [|b|b| |b|]; cbn [on_cb]; unfold pushHeader.
  - exists [RBegin]. split; [reflexivity|]. left. exact Logic.I.
  - exists []. rewrite app_nil_r. split; [destruct (r_lwv r); reflexivity|left; exact Logic.I].
  - exists []. rewrite app_nil_r. split; [reflexivity|left; exact Logic.I].
  - destruct (r_lwv r); (eexists [_]; split; [reflexivity|]; intros X; inversion X; discriminate).
  - exists (map RByte b). split; [reflexivity|]. intros X. destruct b as [|x b]; [now right|]. inversion X; discriminate.
  - eexists [_]. split; [reflexivity|]. intros X. inversion X; discriminate.
Qed.
Definition fine (e : herrno) : Prop := e = HPE_OK \/ e = HPE_PAUSED.
Lemma J_pot : forall n r l r' er, (mu (r_h r) l <= n)%nat -> JOk (r_h r) l -> NR (r_h r) -> full l -> J r l = Some (r', er) -> fine (h_errno (r_h r')) ->
  NR (r_h r') /\ exists lg, r_log r' = r_log r ++ lg /\ (silent lg -> l_body l = None /\ er = [] /\ pot (r_h r') + left l <= pot (r_h r)).
Proof.
  induction n as [n IH] using lt_wf_ind; intros r l r' er Hn HJ N F E O.
  destruct (list_eq_dec ascii_dec (l_data l) []) as [D|D].
  - rewrite J_end in E by auto. injection E as <- <-. rewrite eff_h. split; [exact N|].
    assert (R : l_re l = false) by (destruct (l_re l) eqn:Q; auto; destruct (jo_re _ _ HJ Q); congruence).
    exists (match l_body l with Some b => map RByte b | None => [] end). split.
    + unfold eff. destruct (l_field l), (l_value l), (l_body l); cbn [on_cb]; unfold pushHeader, rlog; rsimp; rewrite ?app_nil_r; try reflexivity; destruct (r_lwv r); reflexivity.
    + intros X. destruct (l_body l) as [[|x b]|] eqn:B; [contradiction|inversion X; discriminate|]. split; [reflexivity|]. split; [reflexivity|]. unfold left. rewrite D, R. change (blen []) with 0. lia.
  - rewrite J_step in E by auto. pose proof (mstep_inv _ _ HJ D) as I. pose proof (jstep_pot _ _ D N) as P. pose proof (jstep_kept _ _ HJ D F) as K. unfold mstep, after in *.
    destruct (jstep (r_h r) l) as [h l'|c h l' e|h e|] eqn:Js; cbn [Potted Kept] in *.
    + destruct I as [I1 I2]. destruct P as [P1 P2]. destruct K as [K1 K2].
      destruct (IH (mu (r_h (rset_h h r)) l')) with (r := rset_h h r) (l := l') (r' := r') (er := er) as (N2 & lg & E1 & S1); auto; [lia|].
      split; [exact N2|]. exists lg. split; [exact E1|]. intros X. destruct (S1 X) as (Y1 & Y2 & Y3). rsimp in *. specialize (P2 Y1).
      split; [destruct (l_body l); [destruct K2; [discriminate|exact Y1]|reflexivity]|]. split; [exact Y2|lia].
    + destruct P as [P1 P2]. destruct K as (K1 & K2 & K3). destruct (on_cb_silent c (rset_h h r)) as (l1 & E2 & S2). rsimp in *.
      assert (SF : silent l1 -> soft c) by (intros X; destruct (S2 X) as [Y|Y]; [exact Y|destruct (K2 _ Y eq_refl)]).
      destruct (is_ok (h_errno (r_h (on_cb c (rset_h h r))))) eqn:Q.
      * destruct I as [I1 I2]. destruct (jok_step r l HJ D h l') as [_ G]. destruct (G _ _ Js) as [G1 _].
        assert (Nc : c <> CbComplete) by (intros ->; cbn in Q; unfold hpause in Q; rsimp in *; rewrite (jo_errno _ _ G1) in Q; discriminate).
        destruct (IH (mu (r_h (on_cb c (rset_h h r))) l')) with (r := on_cb c (rset_h h r)) (l := l') (r' := r') (er := er) as (N2 & lg & E1 & S1); auto; [lia|rewrite on_cb_h by auto; exact P1|].
        split; [exact N2|]. exists (l1 ++ lg). rewrite E1, E2, app_assoc. split; [reflexivity|]. rewrite silent_app. intros (X1 & X2).
        destruct (S1 X2) as (Y1 & Y2 & Y3). rewrite on_cb_h in Y3 by auto. rsimp in *. specialize (P2 (SF X1) Y1).
        split; [destruct (l_body l); [destruct K3; [discriminate|exact (SF X1)]|reflexivity]|]. split; [exact Y2|lia].
      * injection E as <- <-. split.
        { destruct c; try (rewrite on_cb_h in Q by discriminate; rsimp in *; destruct (jok_step r l HJ D h l') as [_ G]; destruct (G _ _ Js) as [G1 _]; rewrite (jo_errno _ _ G1) in Q; discriminate).
          cbn [on_cb]. unfold rlog, hpause. rsimp. destruct (h_errno h); exact P1. }
        exists l1. split; [exact E2|]. intros X. specialize (SF X). exfalso.
        destruct c; try (rewrite on_cb_h in Q by discriminate; rsimp in *; destruct (jok_step r l HJ D h l') as [_ G]; destruct (G _ _ Js) as [G1 _]; rewrite (jo_errno _ _ G1) in Q; discriminate). exact SF.
    + injection E as <- <-. rsimp in *. destruct I as [I1 I2]. destruct O as [O|O]; [congruence|]. pose proof (jstep_inv _ _ HJ D) as G. rewrite Js in G. cbn [Good] in G. destruct G. congruence.
    + discriminate.
Qed.
Lemma pot_pos h : NR h -> 0 <= pot h.
Proof. intros [A B]. pose proof M_pos. unfold pot. destruct (h_state h); lia. Qed.
Lemma pot_max h : NR h -> pot h <= 2 * M + 2.
Proof. intros [A B]. pose proof M_pos. unfold pot. destruct (h_state h); lia. Qed.
Lemma noerr_ok r : UOk r -> hasError r = false -> h_errno (r_h r) = HPE_OK.
Proof. intros U E. unfold hasError in E. pose proof (uo_np _ U). destruct (h_errno (r_h r)); congruence. Qed.
Lemma inject_pot r d r1 n : UOk r -> hasError r = false -> NR (r_h r) -> d <> [] -> inject r d = Some (r1, n) -> hasError r1 = false ->
  NR (r_h r1) /\ exists lg, r_log r1 = r_log r ++ lg /\ (silent lg -> n = blen d /\ pot (r_h r1) + blen d <= pot (r_h r)).
Proof.
  intros U E N D I E1. pose proof (noerr_ok _ U E) as O. unfold inject in I. rewrite (uo_p _ U), execute_run in I by auto.
  assert (HJ : JOk (r_h (rset_parsing true r)) (jstart d (r_h r))) by (rsimp; apply jstart_ok; auto; apply (uo_h _ U); auto).
  destruct (J (rset_parsing true r) (jstart d (r_h r))) as [[r2 er]|] eqn:EJ; [|discriminate]. injection I as <- <-.
  assert (Fi : fine (h_errno (r_h r2))).
  { unfold hasError, runpause in E1. unfold fine. destruct (h_errno (r_h r2)) eqn:Q; rsimp in *; rewrite ?Q in E1; auto; discriminate. }
  destruct (J_pot _ _ _ _ _ (le_n _) HJ N ltac:(discriminate) EJ Fi) as (N2 & lg & L & S). rsimp in *.
  assert (HH : h_nread (r_h (runpause r2)) = h_nread (r_h r2) /\ h_state (r_h (runpause r2)) = h_state (r_h r2) /\ r_log (runpause r2) = r_log r2).
  { unfold runpause. destruct (h_errno (r_h r2)); auto. }
  destruct HH as (H1 & H2 & H3). split; [unfold NR in *; rsimp; now rewrite H1|]. exists lg. rsimp. rewrite H3. split; [exact L|].
  intros X. destruct (S X) as (_ & -> & P). change (blen []) with 0. split; [lia|]. unfold left in P. cbn [jstart l_data l_re] in P. unfold pot in *. rewrite H2, H1. lia.
Qed.
Lemma Feed_pot r segs r' : Feed r segs r' -> UOk r -> hasError r = false -> NR (r_h r) -> hasError r' = false ->
  NR (r_h r') /\ exists lg, r_log r' = r_log r ++ lg /\ (silent lg -> pot (r_h r') + blen (concat segs) <= pot (r_h r)).
Proof.
  induction 1 as [r|r segs r' F IH|r seg segs r1 n r' Ns I E F IH|r seg segs r1 n Ns I E]; intros U Er N E'.
  - split; [exact N|]. exists []. rewrite app_nil_r. split; [reflexivity|]. intros _. change (blen (concat [])) with 0. lia.
  - cbn [concat app]. apply IH; auto.
  - destruct (inject_total r seg U Ns) as (r2 & n2 & I2 & U2 & _). rewrite I in I2. injection I2 as <- <-.
    destruct (inject_pot _ _ _ _ U Er N Ns I E) as (N1 & l1 & L1 & S1). destruct (IH U2 E N1 E') as (N2 & l2 & L2 & S2).
    split; [exact N2|]. exists (l1 ++ l2). rewrite L2, L1, app_assoc. split; [reflexivity|]. rewrite silent_app. intros (X1 & X2).
    destruct (S1 X1) as (-> & P1). specialize (S2 X2). cbn [concat] in *. rewrite blen_app in *. unfold blen at 1 in S2. rewrite skipn_length in S2. unfold blen in *. lia.
  - congruence.
Qed.
Lemma usable_nr r : usable r -> hasError r = false -> NR (r_h r).
Proof.
  intros Us. induction Us as [|r seg r' n Us IH E|r r' Us IH E|r Us IH]; intros He.
  - unfold NR, rfresh, rclear. rsimp. cbn. pose proof M_pos. lia.
  - pose proof (usable_ok _ Us) as U. destruct seg as [|c seg].
    + unfold inject in E. rewrite (uo_p _ U) in E. unfold execute in E. rsimp in *. destruct (is_ok (h_errno (r_h r))) eqn:O; cbn [negb] in E.
      * apply is_ok_true in O. assert (Er : hasError r = false) by (unfold hasError; now rewrite O). specialize (IH Er).
        unfold jeof in E. destruct (h_state (r_h r)); injection E as <- <-; unfold runpause, on_cb, hpause, rlog; rsimp; hsimp; rewrite ?O; hsimp; exact IH.
      * injection E as <- <-. pose proof (uo_np _ U) as NP. revert He. unfold hasError, runpause in *. rsimp. destruct (h_errno (r_h r)) eqn:Q; rsimp; rewrite ?Q; auto; try congruence; try discriminate.
    + destruct (hasError r) eqn:Er.
      * destruct (inject_error r (c :: seg) U Er ltac:(discriminate)) as [m Em]. rewrite E in Em. injection Em as -> _. congruence.
      * apply (inject_pot r (c :: seg) r' n U Er (IH eq_refl) ltac:(discriminate) E He).
  - pose proof (usable_ok _ Us) as U. unfold injectEof in E. rewrite (uo_p _ U) in E. destruct (inject r []) as [[r2 n]|] eqn:I; [|discriminate]. injection E as <-.
    unfold inject in I. rewrite (uo_p _ U) in I. unfold execute in I. rsimp in *. destruct (is_ok (h_errno (r_h r))) eqn:O; cbn [negb] in I.
    * apply is_ok_true in O. assert (Er : hasError r = false) by (unfold hasError; now rewrite O). specialize (IH Er).
      unfold jeof in I. destruct (h_state (r_h r)); injection I as <- <-; unfold runpause, on_cb, hpause, rlog; rsimp; hsimp; rewrite ?O; hsimp; exact IH.
    * injection I as <- <-. pose proof (uo_np _ U) as NP. revert He. cbn [fst]. unfold hasError, runpause in *. rsimp. destruct (h_errno (r_h r)) eqn:Q; rsimp; rewrite ?Q; auto; try congruence; try discriminate.
  - unfold NR, rclear. destruct (r_parsing _); cbn; pose proof M_pos; lia.
Qed.

(** ** No head without an empty line *)
Definition Blank (s : bytes) : Prop := exists a b, s = a ++ [LF; LF] ++ b \/ s = a ++ [LF; CR; LF] ++ b.
Definition in_head (h : hparser) : bool :=
  match h_state h with
  | s_start_res => true
  | s_dead | s_chunk_size_start | s_chunk_size | s_chunk_parameters | s_chunk_size_almost_done | s_headers_done | s_chunk_data | s_chunk_data_almost_done | s_chunk_data_done
  | s_body_identity | s_body_identity_eof | s_message_done => false
  | _ => negb (f_trailing h)
  end.
Definition endings (h : hparser) (data w : bytes) : Prop :=
  match h_state h with
  | s_header_field_start | s_header_value_lws => exists w', w = w' ++ [LF]
  | s_headers_almost_done => (exists w', w = w' ++ [LF; CR]) \/ (exists w' t, w = w' ++ [LF] /\ data = LF :: t)
  | _ => True
  end.
Definition Headed (h : hparser) (data w : bytes) : Prop := in_head h = true /\ endings h data w.
Definition Heads (s : bytes) (res : jres) : Prop :=
  match res with
  | Next h' l' => exists w, w ++ l_data l' = s /\ Headed h' (l_data l') w
  | Call c h' l' er => soft c /\ exists w, w ++ l_data l' = s /\ Headed h' (l_data l') w
  | _ => True
  end.
Lemma first_trail ch h h' : value_first ch h = Some h' -> f_trailing h' = f_trailing h.
Proof. unfold value_first. destruct (h_hs h); try (destruct (negb (IS_NUM ch)); [discriminate|]); intros X; injection X as <-; auto. Qed.
Lemma step_trail ch h h' : value_step ch h = VOk h' -> f_trailing h' = f_trailing h.
Proof.
  unfold value_step, value_word. destruct (h_hs h); try discriminate; try (destruct (match_word _ _ _ _ _)); intros X;
    repeat match type of X with (if ?b then _ else _) = _ => destruct b; try discriminate end; injection X as <-; auto; destruct (negb (ceq ch SP)); auto.
Qed.
Lemma flags_trail h : f_trailing (header_flags h) = f_trailing h.
Proof. unfold header_flags. destruct (h_hs h); auto. Qed.
Lemma ceq_true a b : ceq a b = true -> a = b.
Proof. unfold ceq. apply Ascii.eqb_eq. Qed.
Lemma jbyte_head ch rest h l w : Headed h (ch :: rest) w -> l_data l = ch :: rest -> ~ Blank (w ++ ch :: rest) -> Heads (w ++ ch :: rest) (jbyte ch h l).
Proof.
  intros (IH & EN) D NB. destruct l as [d f v b re]; cbn [l_data l_field l_value l_body l_re] in *. subst d.
  assert (W1 : (w ++ [ch]) ++ rest = w ++ ch :: rest) by now rewrite <- app_assoc.
  unfold in_head in IH. unfold endings in EN. unfold jbyte. destruct (h_state h) eqn:S; try discriminate; try (apply negb_true_iff in IH);
    unfold data_field, data_value, data_body, notify, brk, reexec, err, advance, again, mark_field, mark_value, no_field, no_value, no_body, mark, new_message;
    cbn [l_data l_field l_value l_body l_re moved option_map].
  all: try (repeat match goal with |- context [match ?x with _ => _ end] => first [is_var x; destruct x | destruct x eqn:?] end;
    repeat match goal with X : value_first _ _ = Some _ |- _ => pose proof (first_trail _ _ _ X); apply first_nread in X | X : value_step _ _ = VOk _ |- _ => pose proof (step_trail _ _ _ X); apply step_nread in X end;
    cbn [Heads soft option_map moved l_data]; try exact Logic.I;
    repeat match goal with X : h_nread _ = _ /\ h_state _ = _ |- _ => let A := fresh in let B := fresh in destruct X as [A B] end;
    try (split; [exact Logic.I|]);
    first [ exists (w ++ [ch]); split; [exact W1|]; unfold Headed, in_head, endings; hsimp in *; rewrite ?flags_trail, ?(proj2 (flags_nread _)); hsimp in *;
            repeat match goal with X : h_state _ = _ |- _ => rewrite X end; repeat match goal with X : f_trailing _ = _ |- _ => rewrite X end; cbn [negb]; split; try reflexivity; try exact Logic.I;
            repeat match goal with X : ceq _ _ = true |- _ => apply ceq_true in X; subst end; try (now exists w); fail
          | exists w; split; [reflexivity|]; unfold Headed, in_head, endings; hsimp in *; rewrite ?IH; cbn [negb]; split; [reflexivity|]; auto;
            repeat match goal with X : ceq _ _ = true |- _ => apply ceq_true in X; subst end; auto; fail ]; fail).
  - destruct EN as (w' & Ew). destruct (ceq ch CR) eqn:C1.
    + apply ceq_true in C1. cbn [Heads l_data]. exists (w ++ [ch]). split; [exact W1|]. unfold Headed, in_head, endings. hsimp. rewrite IH. split; [reflexivity|]. left. exists w'. rewrite Ew, C1, <- app_assoc. reflexivity.
    + destruct (ceq ch LF) eqn:C2.
      * apply ceq_true in C2. cbn [Heads l_data]. exists w. split; [reflexivity|]. unfold Headed, in_head, endings. hsimp. rewrite IH. split; [reflexivity|]. right. exists w', rest. split; [exact Ew|congruence].
      * destruct (TOKEN ch); [|exact Logic.I]. cbn [Heads l_data]. exists (w ++ [ch]). split; [exact W1|]. unfold Headed, in_head, endings. hsimp. rewrite IH. split; [reflexivity|exact Logic.I].
  - destruct (ceq ch LF) eqn:C2; [|exact Logic.I]. apply ceq_true in C2. exfalso. apply NB. destruct EN as [(w' & ->)|(w' & t & -> & X)].
    + exists w', rest. right. rewrite C2, <- app_assoc. reflexivity.
    + exists w', rest. left. rewrite C2, <- app_assoc. reflexivity.
Qed.
Lemma jstep_head h l w : Headed h (l_data l) w -> l_data l <> [] -> ~ Blank (w ++ l_data l) -> Heads (w ++ l_data l) (jstep h l).
Proof.
  intros HH D NB. unfold jstep. destruct (l_data l) as [|ch rest] eqn:E; [congruence|].
  destruct (l_re l); [now apply jbyte_head|]. destruct (parsing_header (h_state h)); [|now apply jbyte_head].
  cbn zeta. destruct (M <? _); [exact Logic.I|]. apply jbyte_head; auto.
Qed.
Lemma headed_bodyless h d w : Headed h d w -> body_state (h_state h) = false.
Proof. intros (H & _). unfold in_head in H. destruct (h_state h); try discriminate; reflexivity. Qed.
Lemma J_head : forall n r l r' er w, (mu (r_h r) l <= n)%nat -> JOk (r_h r) l -> Headed (r_h r) (l_data l) w -> ~ Blank (w ++ l_data l) -> J r l = Some (r', er) -> fine (h_errno (r_h r')) ->
  h_errno (r_h r') = HPE_OK /\ er = [] /\ (exists lg, r_log r' = r_log r ++ lg /\ silent lg) /\ Headed (r_h r') [] (w ++ l_data l).
Proof.
  induction n as [n IH] using lt_wf_ind; intros r l r' er w Hn HJ HH NB E O.
  destruct (list_eq_dec ascii_dec (l_data l) []) as [D|D].
  - rewrite J_end in E by auto. injection E as <- <-. rewrite eff_h. split; [apply (jo_errno _ _ HJ)|]. split; [reflexivity|]. rewrite D in *. rewrite app_nil_r. split; [|exact HH].
    assert (B : l_body l = None). { destruct (l_body l) eqn:B; [|reflexivity]. pose proof (jo_b _ _ HJ) as X. rewrite B in X. specialize (X eq_refl). rewrite (headed_bodyless _ _ _ HH) in X. discriminate. }
    exists []. split; [|constructor]. unfold eff. rewrite B. destruct (l_field l), (l_value l); cbn [on_cb]; unfold pushHeader, rlog; rsimp; rewrite ?app_nil_r; try reflexivity; destruct (r_lwv r); reflexivity.
  - rewrite J_step in E by auto. pose proof (mstep_inv _ _ HJ D) as I. pose proof (jstep_head _ _ _ HH D NB) as P. unfold mstep, after in *.
    destruct (jstep (r_h r) l) as [h l'|c h l' e|h e|] eqn:Js; cbn [Heads] in *.
    + destruct I as [I1 I2]. destruct P as (w2 & Ew & P). rewrite <- Ew in *.
      apply (IH (mu (r_h (rset_h h r)) l') ltac:(lia) (rset_h h r) l' r' er w2); auto.
    + destruct P as (Sc & w2 & Ew & P). rewrite <- Ew in *. destruct (on_cb_silent c (rset_h h r)) as (l1 & E2 & S2). rsimp in *.
      assert (S1 : silent l1). { destruct c; try contradiction; cbn [on_cb] in E2; unfold pushHeader, rlog in E2; rsimp in *; try (destruct (r_lwv r)); rsimp in *.
        all: first [apply app_inv_head in E2; subst l1; repeat constructor; fail | rewrite <- (app_nil_r (r_log r)) in E2 at 1; apply app_inv_head in E2; subst l1; constructor]. }
      assert (Nc : c <> CbComplete) by (intros ->; exact Sc). destruct (jok_step r l HJ D h l') as [_ G]. destruct (G _ _ Js) as [G1 _].
      rewrite on_cb_h in * by exact Nc. rsimp in *. rewrite (jo_errno _ _ G1) in *. cbn [is_ok] in *. destruct I as [I1 I2].
      assert (RH : r_h (on_cb c (rset_h h r)) = h) by (rewrite on_cb_h by exact Nc; reflexivity).
      destruct (IH (mu h l') ltac:(eapply Nat.lt_le_trans; [exact (proj2 (G _ _ Js))|exact Hn]) (on_cb c (rset_h h r)) l' r' er w2) as (A1 & A2 & (lg & A3 & A4) & A5); rewrite ?RH; auto.
      split; [exact A1|]. split; [exact A2|]. split; [|exact A5]. exists (l1 ++ lg). rewrite A3, E2, app_assoc. split; [reflexivity|]. apply silent_app. auto.
    + injection E as <- <-. rsimp in *. destruct I as [I1 I2]. destruct O as [O|O]; [congruence|]. pose proof (jstep_inv _ _ HJ D) as G. rewrite Js in G. cbn [Good] in G. destruct G. congruence.
    + discriminate.
Qed.
Lemma inject_head r d r1 n w : UOk r -> hasError r = false -> Headed (r_h r) [] w -> d <> [] -> ~ Blank (w ++ d) -> inject r d = Some (r1, n) -> hasError r1 = false ->
  n = blen d /\ (exists lg, r_log r1 = r_log r ++ lg /\ silent lg) /\ Headed (r_h r1) [] (w ++ d).
Proof.
  intros U E HH D NB I E1. pose proof (noerr_ok _ U E) as O. unfold inject in I. rewrite (uo_p _ U), execute_run in I by auto.
  assert (HJ : JOk (r_h (rset_parsing true r)) (jstart d (r_h r))) by (rsimp; apply jstart_ok; auto; apply (uo_h _ U); auto).
  destruct (J (rset_parsing true r) (jstart d (r_h r))) as [[r2 er]|] eqn:EJ; [|discriminate]. injection I as <- <-.
  assert (Fi : fine (h_errno (r_h r2))).
  { unfold hasError, runpause in E1. unfold fine. destruct (h_errno (r_h r2)) eqn:Q; rsimp in *; rewrite ?Q in E1; auto; discriminate. }
  assert (HH' : Headed (r_h (rset_parsing true r)) (l_data (jstart d (r_h r))) w).
  { destruct HH as (H1 & H2). split; [exact H1|]. unfold endings in *. rsimp. destruct (h_state (r_h r)); auto. destruct H2 as [H2|(w' & t & _ & H2)]; [now left|discriminate]. }
  destruct (J_head _ _ _ _ _ w (le_n _) HJ HH' NB EJ Fi) as (A1 & -> & (lg & L & S) & A5). rsimp in *.
  unfold runpause. rewrite A1. rsimp. change (blen []) with 0. split; [lia|]. split; [now exists lg|exact A5].
Qed.
Lemma Feed_head r segs r' : Feed r segs r' -> forall w, UOk r -> hasError r = false -> Headed (r_h r) [] w -> ~ Blank (w ++ concat segs) -> hasError r' = false ->
  exists lg, r_log r' = r_log r ++ lg /\ silent lg.
Proof.
  induction 1 as [r|r segs r' F IH|r seg segs r1 n r' Ns I E F IH|r seg segs r1 n Ns I E]; intros w U Er HH NB E'.
  - exists []. rewrite app_nil_r. split; [reflexivity|constructor].
  - cbn [concat app] in NB. eapply IH; eauto.
  - destruct (inject_total r seg U Ns) as (r2 & n2 & I2 & U2 & _). rewrite I in I2. injection I2 as <- <-. cbn [concat] in *.
    assert (NB1 : ~ Blank (w ++ seg)). { intros (a & b & X). apply NB. exists a, (b ++ concat segs). destruct X as [X|X]; [left|right]; rewrite app_assoc, X, <- !app_assoc; reflexivity. }
    destruct (inject_head _ _ _ _ _ U Er HH Ns NB1 I E) as (-> & (l1 & L1 & S1) & H1).
    destruct (IH (w ++ seg) U2 E H1) as (l2 & L2 & S2); auto.
    { unfold blen. rewrite Nat2Z.id, skipn_all. cbn [app]. now rewrite <- app_assoc. }
    exists (l1 ++ l2). rewrite L2, L1, app_assoc. split; [reflexivity|]. apply silent_app. auto.
  - congruence.
Qed.

(** ** Without an empty line nothing is reported, even before an error *)
Lemma J_silent : forall n r l r' er w, (mu (r_h r) l <= n)%nat -> JOk (r_h r) l -> Headed (r_h r) (l_data l) w -> ~ Blank (w ++ l_data l) -> J r l = Some (r', er) ->
  exists lg, r_log r' = r_log r ++ lg /\ silent lg.
Proof.
  induction n as [n IH] using lt_wf_ind; intros r l r' er w Hn HJ HH NB E.
  destruct (list_eq_dec ascii_dec (l_data l) []) as [D|D].
  - rewrite J_end in E by auto. injection E as <- <-.
    assert (B : l_body l = None). { destruct (l_body l) eqn:B; [|reflexivity]. pose proof (jo_b _ _ HJ) as X. rewrite B in X. specialize (X eq_refl). rewrite (headed_bodyless _ _ _ HH) in X. discriminate. }
    exists []. split; [|constructor]. unfold eff. rewrite B. destruct (l_field l), (l_value l); cbn [on_cb]; unfold pushHeader, rlog; rsimp; rewrite ?app_nil_r; try reflexivity; destruct (r_lwv r); reflexivity.
  - rewrite J_step in E by auto. pose proof (mstep_inv _ _ HJ D) as I. pose proof (jstep_head _ _ _ HH D NB) as P. unfold mstep, after in *.
    destruct (jstep (r_h r) l) as [h l'|c h l' e|h e|] eqn:Js; cbn [Heads] in *.
    + destruct I as [I1 I2]. destruct P as (w2 & Ew & P). rewrite <- Ew in *.
      apply (IH (mu (r_h (rset_h h r)) l') ltac:(lia) (rset_h h r) l' r' er w2); auto.
    + destruct P as (Sc & w2 & Ew & P). rewrite <- Ew in *. destruct (on_cb_silent c (rset_h h r)) as (l1 & E2 & S2). rsimp in *.
      assert (S1 : silent l1). { destruct c; try contradiction; cbn [on_cb] in E2; unfold pushHeader, rlog in E2; rsimp in *; try (destruct (r_lwv r)); rsimp in *.
        all: first [apply app_inv_head in E2; subst l1; repeat constructor; fail | rewrite <- (app_nil_r (r_log r)) in E2 at 1; apply app_inv_head in E2; subst l1; constructor]. }
      assert (Nc : c <> CbComplete) by (intros ->; exact Sc). destruct (jok_step r l HJ D h l') as [_ G]. destruct (G _ _ Js) as [G1 _].
      rewrite on_cb_h in * by exact Nc. rsimp in *. rewrite (jo_errno _ _ G1) in *. cbn [is_ok] in *. destruct I as [I1 I2].
      assert (RH : r_h (on_cb c (rset_h h r)) = h) by (rewrite on_cb_h by exact Nc; reflexivity).
      destruct (IH (mu h l') ltac:(eapply Nat.lt_le_trans; [exact (proj2 (G _ _ Js))|exact Hn]) (on_cb c (rset_h h r)) l' r' er w2) as (lg & A3 & A4); rewrite ?RH; auto.
      exists (l1 ++ lg). rewrite A3, E2, app_assoc. split; [reflexivity|]. apply silent_app. auto.
    + injection E as <- <-. rsimp in *. exists []. rewrite app_nil_r. split; [reflexivity|constructor].
    + discriminate.
Qed.
