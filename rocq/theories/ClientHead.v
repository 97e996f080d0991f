(** What HttpClient makes of the response to a HEAD request. *)
From Verif Require Import Bytes TextSpec ByteHelpers Helpers CIProofs Joyent RespParser RespSpec RespInv RespSplit RespFeed RespDecode RespBody RespWhole RespBound.
From Verif Require Import Client ClientSpec ClientInv ClientSim ClientRecv ClientBad HeadWalk.
Open Scope Z_scope.

(** ** A head has no empty line before its end *)
Fixpoint blank (st : nat) (s : bytes) {struct s} : bool :=
  match s with
  | [] => false
  | c :: t =>
      if Ascii.eqb c LF then match st with O => blank 1 t | _ => true end
      else match st with 1%nat => if Ascii.eqb c CR then blank 2 t else blank 0 t | _ => blank 0 t end
  end.
Lemma blank_Blank s : Blank s -> forall st, blank st s = true.
Proof.
  intros (a & b & E). revert s E. induction a as [|c a IH]; intros s E st.
  - destruct E as [-> | ->]; destruct st as [|[|]]; reflexivity.
  - assert (X : forall st', blank st' (a ++ [LF; LF] ++ b) = true \/ blank st' (a ++ [LF; CR; LF] ++ b) = true) by (intros st'; destruct E as [_|_]; [left; apply IH; auto|right; apply IH; auto]).
    destruct E as [-> | ->]; cbn [app blank]; destruct (Ascii.eqb c LF); destruct st as [|[|]]; try reflexivity; try (apply IH; auto; fail); destruct (Ascii.eqb c CR); apply IH; auto.
Qed.
Lemma blank_line u : forall st s, eol_free u = true -> (st = 0%nat \/ u <> []) -> blank st (u ++ CRLF ++ s) = blank 1 s.
Proof.
  induction u as [|c u IH]; intros st s E H.
  - destruct H as [->|H]; [reflexivity|congruence].
  - cbn [eol_free forallb] in E. apply andb_prop in E as [E1 E2]. apply andb_prop in E1 as [E3 E4]. apply negb_true_iff in E3. apply negb_true_iff in E4.
    cbn [app blank]. rewrite E3, E4. destruct st as [|[|]]; apply IH; auto.
Qed.
Lemma eol_app a b : eol_free (a ++ b) = eol_free a && eol_free b.
Proof. unfold eol_free. apply forallb_app. Qed.
Lemma all_eol (p : ascii -> bool) : p CR = false -> p LF = false -> forall s, forallb p s = true -> eol_free s = true.
Proof.
  intros P1 P2 s H. unfold eol_free. apply forallb_forall. intros c I. rewrite forallb_forall in H. specialize (H _ I).
  destruct (Ascii.eqb_spec c CR); [subst; congruence|]. destruct (Ascii.eqb_spec c LF); [subst; congruence|]. reflexivity.
Qed.
Lemma digits_eol s n : Digits 10 s n -> eol_free s = true.
Proof.
  assert (C : forall c d, digit_val c = Some d -> eol_free [c] = true).
  { intros c d E. unfold eol_free. cbn [forallb]. destruct (Ascii.eqb_spec c CR); [subst; discriminate|]. destruct (Ascii.eqb_spec c LF); [subst; discriminate|]. reflexivity. }
  induction 1 as [c d E L|s n c d _ IH E L]; [eauto|]. rewrite eol_app, IH. eauto.
Qed.
Lemma lines_blank t hs : HeaderLines t hs -> forall s, blank 1 (t ++ s) = blank 1 s.
Proof.
  induction 1 as [|n w v t hs N W V _ IH]; intros s; [reflexivity|].
  replace ((n ++ lit ":" ++ w ++ v ++ CRLF ++ t) ++ s) with ((n ++ lit ":" ++ w ++ v) ++ CRLF ++ (t ++ s)) by (rewrite <- !app_assoc; reflexivity).
  rewrite blank_line; [apply IH| |right; destruct n; discriminate].
  unfold wf_name in N. apply andb_prop in N as [_ N]. unfold wf_value in V. apply andb_prop in V as [V _].
  rewrite !eol_app, V. rewrite (all_eol tchar eq_refl eq_refl n N). rewrite (all_eol blank_char eq_refl eq_refl w W). reflexivity.
Qed.
Lemma head_blank t a b c hs : ResponseHead t a b c hs -> exists t', t = t' ++ [LF] /\ blank 0 t' = false.
Proof.
  intros [sl a' b' c' u hs' HS HL]. exists (sl ++ u ++ [CR]). split; [unfold CRLF; rewrite <- !app_assoc; reflexivity|].
  destruct HS as [da db dc a0 b0 c0 reason D1 _ D2 _ D3 _ Rs].
  replace ((lit "HTTP/" ++ da ++ lit "." ++ db ++ lit " " ++ dc ++ reason ++ CRLF) ++ u ++ [CR]) with ((lit "HTTP/" ++ da ++ lit "." ++ db ++ lit " " ++ dc ++ reason) ++ CRLF ++ (u ++ [CR])) by (rewrite <- !app_assoc; reflexivity).
  rewrite blank_line; [rewrite (lines_blank _ _ HL); reflexivity| |now left].
  rewrite !eol_app, (digits_eol _ _ D1), (digits_eol _ _ D2), (digits_eol _ _ D3).
  assert (ER : eol_free reason = true) by (destruct Rs as [->|(tt0 & -> & Et)]; [reflexivity|exact Et]). rewrite ER. reflexivity.
Qed.
Lemma head_prefix t a b c hs D y : ResponseHead t a b c hs -> t = D ++ y -> y <> [] -> ~ Blank D.
Proof.
  intros HD E Ny (p & q & B). destruct (head_blank _ _ _ _ _ HD) as (t' & Et & Bt).
  destruct (exists_last Ny) as (y' & ch & ->). rewrite Et, app_assoc in E. apply app_inj_tail in E as [-> _].
  assert (X : blank 0 (D ++ y') = true); [|congruence]. apply blank_Blank. exists p, (q ++ y'). destruct B as [-> | ->]; [left|right]; rewrite <- !app_assoc; reflexivity.
Qed.

(** ** The parser on a head *)
Section Head.
  Variables (q0 : rparser) (t : bytes) (a b c : Z) (hs : list (bytes * bytes)) (o : option Z).
  Hypotheses (R : ready q0) (HD : ResponseHead t a b c hs) (TL : blen t <= max_head - 2) (CL : ContentLength hs o).

  Lemma head_all d r n : inject q0 (t ++ d) = Some (r, n) -> exists e, r_log r = r_log q0 ++ RBegin :: RHeaders a b c hs :: e.
  Proof.
    intros E. destruct (head_run q0 t a b c hs o R HD TL CL d) as (hh & idx & k & HJ & EI). rewrite EI in E.
    destruct (J _ _) as [[r' er]|] eqn:EJ; [|discriminate]. injection E as <- <-. destruct (jrun_log _ _ _ _ _ EJ) as [lg L]. exists lg.
    rsimp. rewrite runpause_log, L. cbn [head_r r_log]. rsimp. now rewrite <- app_assoc.
  Qed.
  Lemma head_silent D y r n : t = D ++ y -> y <> [] -> D <> [] -> inject q0 D = Some (r, n) -> exists lg, r_log r = r_log q0 ++ lg /\ silent lg.
  Proof.
    intros Et Ny ND E. destruct (inject_J q0 D (rd_u _ R) (rd_e _ R) ND) as (r2 & er & EJ & EI & _). rewrite E in EI. injection EI as -> _.
    assert (HJ : JOk (r_h (rset_parsing true q0)) (jstart D (r_h q0))) by (rsimp; apply jstart_ok; [apply (uo_h _ (rd_u _ R)), (rd_e _ R)|apply (rd_e _ R)]).
    assert (HH : Headed (r_h (rset_parsing true q0)) (l_data (jstart D (r_h q0))) []) by (split; [unfold in_head; rsimp; now rewrite (rd_s _ R)|unfold endings; rsimp; now rewrite (rd_s _ R)]).
    destruct (J_silent _ _ _ r2 er [] (le_n _) HJ HH) as (lg & L & S); [|exact EJ|].
    - cbn [app jstart l_data]. eapply head_prefix; eauto.
    - exists lg. rsimp. rewrite runpause_log. auto.
  Qed.
  Lemma not_silent lg e : ~ silent (lg ++ RHeaders a b c hs :: e).
  Proof. rewrite silent_app. intros (_ & X). inversion X; subst. discriminate. Qed.
  Lemma head_after D q y : After q0 D q -> t = D ++ y -> y <> [] -> UOk q /\ h_errno (r_h q) = HPE_OK /\ exists lg, r_log q = r_log q0 ++ lg /\ silent lg.
  Proof.
    intros [[-> ->]|(N & E & He)] Et Ny.
    - split; [apply (rd_u _ R)|]. split; [apply (rd_e _ R)|]. exists []. rewrite app_nil_r. split; [reflexivity|constructor].
    - destruct (inject_total q0 D (rd_u _ R) N) as (r1 & n & E1 & U1 & _). rewrite E in E1. injection E1 as <- <-.
      split; [exact U1|]. split; [now apply UOk_ok|]. eapply head_silent; eauto.
  Qed.
  Lemma head_part D y : t = D ++ y -> y <> [] -> D <> [] -> exists q, inject q0 D = Some (q, blen D) /\ hasError q = false.
  Proof.
    intros Et Ny ND. destruct (cut_inject q0 D y (rd_u _ R) (rd_e _ R) ND Ny) as (r1 & n1 & X1 & [(He & -> & _)|X2]); [eauto|].
    exfalso. destruct (head_silent D y r1 n1 Et Ny ND X1) as (lg & L & S). rewrite <- Et, <- (app_nil_r t) in X2. destruct (head_all [] _ _ X2) as (e & L2).
    rewrite L in L2. apply app_inv_head in L2. subst lg. exact (not_silent [RBegin] e S).
  Qed.
  (* the next piece *)
  Lemma head_next D q y d z x : After q0 D q -> t = D ++ y -> y <> [] -> d <> [] -> d ++ z = y ++ x ->
    exists r2 er, J (rset_parsing true q) (jstart d (r_h q)) = Some (r2, er) /\
      ((exists y', y = d ++ y' /\ y' <> [] /\ er = [] /\ h_errno (r_h r2) = HPE_OK /\ After q0 (D ++ d) (rset_parsing false r2) /\
          exists lg, r_log r2 = r_log q0 ++ lg /\ silent lg) \/
       ((exists d', d = y ++ d') /\ exists e, r_log r2 = r_log q0 ++ RBegin :: RHeaders a b c hs :: e)).
  Proof.
    intros Af Et Ny Nd Ez. destruct (head_after D q y Af Et Ny) as (U & O & lq & Lq & Sq).
    destruct (inject_J q d U O Nd) as (r2 & er & EJ & EI & HO & HP). exists r2, er. split; [exact EJ|].
    assert (Cut : (exists y', y = d ++ y' /\ y' <> []) \/ exists d', d = y ++ d').
    { clear -Ez. revert y Ez. induction d as [|h d IH]; intros [|g y] Ez.
      - right. now exists [].
      - left. exists (g :: y). split; [reflexivity|discriminate].
      - right. now exists (h :: d).
      - cbn [app] in Ez. injection Ez as <- Ez. destruct (IH _ Ez) as [(y' & -> & N)|(d' & ->)]; [left; exists y'; split; [reflexivity|exact N]|right; exists d'; reflexivity]. }
    destruct Cut as [(y' & -> & Ny')|(d' & ->)].
    - left. exists y'. split; [reflexivity|]. split; [exact Ny'|].
      assert (Et' : t = (D ++ d) ++ y') by now rewrite <- app_assoc. assert (N2 : D ++ d <> []) by (destruct D; [exact Nd|discriminate]).
      destruct (head_part (D ++ d) y' Et' Ny' N2) as (qn & En & Hn). destruct (head_silent (D ++ d) y' qn _ Et' Ny' N2 En) as (ln & Ln & Sn).
      destruct (inject_total q0 (D ++ d) (rd_u _ R) N2) as (r1' & n' & E1 & U1 & _). rewrite En in E1. injection E1 as <- <-.
      assert (On : h_errno (r_h qn) = HPE_OK) by now apply UOk_ok.
      assert (X : inject q d = Some (qn, blen d)).
      { destruct Af as [[-> ->]|(ND & E & He)]; [exact En|].
        destruct (cut_inject q0 D d (rd_u _ R) (rd_e _ R) ND Nd) as (r1 & n1 & X1 & X2). rewrite E in X1. injection X1 as <- <-.
        destruct X2 as [(_ & _ & _ & xa & xb & n2 & X2 & X3 & HR)|X2].
        - rewrite En, blen_app in X2. injection X2 as <- X2. assert (n2 = blen d) as -> by lia. rewrite X3. f_equal. f_equal. symmetry. apply HR. now left.
        - rewrite En in X2. injection X2 as -> X2. rewrite blen_app in X2. destruct d; [congruence|]. rewrite blen_cons in X2. pose proof (blen_nonneg d). lia. }
      rewrite EI in X. injection X as Xq Xn. 
      assert (O2 : h_errno (r_h r2) = HPE_OK).
      { destruct (h_errno (r_h r2)) eqn:Q; auto.
        all: try (exfalso; assert (Y : h_errno (r_h qn) = h_errno (r_h r2)) by (rewrite <- Xq; rsimp; destruct (runpause_h r2) as (_ & Y2 & _); rewrite Y2 by congruence; reflexivity); congruence).
        exfalso. assert (HJ : JOk (r_h (rset_parsing true q)) (jstart d (r_h q))) by (rsimp; apply jstart_ok; auto; apply (uo_h _ U); auto).
        destruct (J_paused _ _ _ _ _ (le_n _) HJ EJ Q) as [lg' L]. rewrite <- Xq in Ln. rsimp in *. rewrite runpause_log, L, Lq, <- app_assoc in Ln. apply app_inv_head in Ln. subst ln.
        rewrite app_assoc, silent_app in Sn. destruct Sn as (_ & X). inversion X; subst. discriminate. }
      assert (RP : runpause r2 = r2) by (unfold runpause; now rewrite O2). rewrite RP in *.
      split; [now apply HO|]. split; [exact O2|]. split; [right; rewrite Xq; auto|]. exists ln. rewrite <- Xq in Ln. rsimp in *. auto.
    - right. split; [now exists d'|]. destruct Af as [[-> ->]|(ND & E & He)].
      + cbn [app] in Et. subst y. destruct (head_all d' _ _ EI) as (e & L). rsimp in *. rewrite runpause_log in L. eauto.
      + destruct (cut_inject q0 D (y ++ d') (rd_u _ R) (rd_e _ R) ND) as (r1 & n1 & X1 & X2); [intros X; apply app_eq_nil in X as [X _]; congruence|].
        rewrite E in X1. injection X1 as <- <-. rewrite app_assoc, <- Et in X2.
        destruct X2 as [(_ & _ & _ & xa & xb & n2 & X2 & X3 & HR)|X2].
        * rewrite EI in X3. injection X3 as <- <-. destruct (head_all d' _ _ X2) as (e & L). destruct HR as (_ & _ & _ & xx & _ & HR). rsimp in *. rewrite runpause_log, L in HR.
          rewrite HR, <- app_assoc. cbn [app]. eauto.
        * exfalso. destruct (head_all d' _ _ X2) as (e & L). rewrite Lq in L. apply app_inv_head in L. subst lq. exact (not_silent [RBegin] e Sq).
  Qed.

  (* where the parser is when it reports the headers *)
  Lemma walk_loud D q y d a' la r2 er lg : After q0 D q -> t = D ++ y -> y <> [] -> d <> [] -> Walk (rset_parsing true q) (jstart d (r_h q)) a' la ->
    J (rset_parsing true q) (jstart d (r_h q)) = Some (r2, er) -> r_log r2 = r_log q0 ++ lg -> silent lg -> False.
  Proof.
    intros Af Et Ny Nd W EJ L S. destruct (head_after D q y Af Et Ny) as (U & O & lq & Lq & Sq).
    assert (HJ : JOk (r_h (rset_parsing true q)) (jstart d (r_h q))) by (rsimp; apply jstart_ok; auto; apply (uo_h _ U); auto).
    destruct (walk_J _ _ _ _ W HJ) as (E & _). rewrite EJ in E. symmetry in E. apply jrun_log in E as (e & L2).
    destruct (walk_log _ _ _ _ W) as (l0 & L3 & S3). rsimp in *. rewrite L2, L3, Lq, <- !app_assoc in L. apply app_inv_head in L. subst lg.
    rewrite !silent_app in S. destruct S as (_ & _ & X & _). inversion X; subst. discriminate.
  Qed.
  Lemma walk_short D q y d y' a' la : After q0 D q -> t = D ++ y -> y <> [] -> d <> [] -> y = d ++ y' -> y' <> [] -> Walk (rset_parsing true q) (jstart d (r_h q)) a' la -> False.
  Proof.
    intros Af Et Ny Nd Ey Ny' W.
    destruct (head_next D q y d y' [] Af Et Ny Nd) as (r2 & er & EJ & [(y2 & _ & _ & _ & _ & _ & lg & L & S)|((d' & Ed) & _)]); [now rewrite app_nil_r| |].
    - exact (walk_loud D q y d a' la r2 er lg Af Et Ny Nd W EJ L S).
    - rewrite Ed, <- app_assoc in Ey. rewrite <- (app_nil_r y) in Ey at 1. apply app_inv_head in Ey. symmetry in Ey. apply app_eq_nil in Ey as [_ Ey]. congruence.
  Qed.
  Lemma walk_fields D q y d z x a' la : After q0 D q -> t = D ++ y -> y <> [] -> d <> [] -> d ++ z = y ++ x -> Walk (rset_parsing true q) (jstart d (r_h q)) a' la ->
    (exists d', d = y ++ d') /\ r_field a' = [] /\ r_value a' = [] /\ should_keep_alive (r_h a') = should_keep_alive (head_h a b c hs (r_h q0)).
  Proof.
    intros Af Et Ny Nd Ez W. destruct (head_after D q y Af Et Ny) as (U & O & lq & Lq & Sq).
    destruct (head_next D q y d z x Af Et Ny Nd Ez) as (r2 & er & EJ & [(y2 & _ & _ & _ & _ & _ & lg & L & S)|((d' & ->) & _)]); [exfalso; exact (walk_loud D q y d a' la r2 er lg Af Et Ny Nd W EJ L S)|].
    split; [now exists d'|]. clear r2 er EJ.
    assert (HJ : JOk (r_h (rset_parsing true q)) (jstart y (r_h q))) by (rsimp; apply jstart_ok; auto; apply (uo_h _ U); auto).
    destruct (head_next D q y y [] [] Af Et Ny Ny eq_refl) as (r2 & er & EJ & [(y2 & Ey & Ny2 & _)|(_ & e & L)]).
    { exfalso. rewrite <- (app_nil_r y) in Ey at 1. apply app_inv_head in Ey. congruence. }
    assert (IH : in_head (r_h (rset_parsing true q)) = true) by (inversion W; auto).
    destruct (jrun_log _ _ _ _ _ EJ) as (lg & Lg).
    destruct (walk_ex _ _ _ r2 er lg (le_n _) HJ IH EJ Lg) as (a1 & la1 & W1).
    { intros S. rsimp in *. rewrite L, Lq, <- app_assoc in Lg. apply app_inv_head in Lg. apply (not_silent [RBegin] e). cbn [app]. rewrite Lg, silent_app. auto. }
    pose proof (walk_app _ _ _ _ d' W1 HJ) as W2. destruct (walk_det _ _ _ _ W _ _ W2) as [-> _].
    destruct (walk_J _ _ _ _ W1 HJ) as (E1 & HJ1). rewrite EJ in E1. symmetry in E1.
    destruct (walk_end _ _ _ _ W1) as (qe & he & le & _ & _ & _ & _ & Re & Dn & _).
    assert (Dn1 : at_done (r_h a1)) by (clear -W1; induction W1; auto).
    assert (L1 : length (l_data la1) = 1%nat).
    { destruct (l_data la1) as [|c1 [|c2 rest]] eqn:El; [congruence|reflexivity|]. exfalso. destruct (exists_last Ny) as (y0 & ch & Ey).
      assert (Ap : jstart y (r_h q) = app2 (jstart y0 (r_h q)) [ch]) by (rewrite Ey; reflexivity).
      destruct (walk_cut _ _ _ _ [ch] W1 (jstart y0 (r_h q)) Ap) as (la2 & _ & W3).
      - exact HJ.
      - intros N. rsimp. apply jstart_ok; auto. apply (uo_h _ U); auto.
      - rewrite El. cbn [length]. lia.
      - destruct y0 as [|h0 y0]; [inversion W3; cbn in *; congruence|]. eapply (walk_short D q y (h0 :: y0) [ch]); eauto; discriminate. }
    (* the same from the start *)
    destruct (head_run q0 t a b c hs o R HD TL CL []) as (hh & idx & k & HJf & EI). rewrite app_nil_r in EI.
    set (af := head_r a b c hs (hdone q0 a b c hs hh idx k) (rset_parsing true q0)) in *. set (lf := mkL [LF] None None None true) in *.
    assert (HJ2 : JOk (r_h af) lf) by exact HJf. destruct (J_total _ af lf (le_n _) HJ2) as (rf & ef & EF & _). rewrite EF in EI.
    destruct (done_J af lf rf ef eq_refl HJ2 eq_refl eq_refl EF (or_introl eq_refl)) as (F1 & F2 & F3 & F4).
    assert (Pq : forall r, r_field (runpause r) = r_field r /\ r_value (runpause r) = r_value r /\ should_keep_alive (r_h (runpause r)) = should_keep_alive (r_h r) /\
       (h_errno (r_h r) = HPE_OK \/ h_errno (r_h r) = HPE_PAUSED <-> h_errno (r_h (runpause r)) = HPE_OK)).
    { intros r. unfold runpause. destruct (h_errno (r_h r)) eqn:Q; rsimp; hsimp; repeat split; auto; rewrite ?Q; intros X; try destruct X; try discriminate; auto. }
    destruct (Pq rf) as (P1 & P2 & P3 & P4). destruct (Pq r2) as (Q1 & Q2 & Q3 & Q4).
    destruct (inject_J q y U O Ny) as (r3 & er3 & EJ3 & EI3 & _). rewrite EJ in EJ3. injection EJ3 as <- <-.
    assert (Same : rset_parsing false (runpause rf) = rset_parsing false (runpause r2)).
    { destruct Af as [[-> ->]|(ND & E & He)].
      - cbn [app] in Et. subst y. rewrite EI in EI3. congruence.
      - destruct (cut_inject q0 D y (rd_u _ R) (rd_e _ R) ND Ny) as (r1 & n1 & X1 & X2). rewrite E in X1. injection X1 as <- <-. rewrite <- Et in X2.
        destruct X2 as [(_ & _ & _ & xa & xb & n2 & X2 & X3 & HR)|X2].
        + rewrite EI in X2. rewrite EI3 in X3. injection X2 as <- _. injection X3 as <- _. apply HR. left. rsimp. now apply P4.
        + exfalso. rewrite <- (app_nil_r t) in X2. destruct (head_all [] _ _ X2) as (e' & L'). rewrite Lq in L'. apply app_inv_head in L'. subst lq. exact (not_silent [RBegin] e' Sq). }
    assert (G1 : r_field (runpause rf) = r_field (runpause r2)) by exact (f_equal r_field Same).
    assert (G2 : r_value (runpause rf) = r_value (runpause r2)) by exact (f_equal r_value Same).
    assert (G3 : r_h (runpause rf) = r_h (runpause r2)) by exact (f_equal r_h Same).
    assert (O2 : h_errno (r_h r2) = HPE_OK \/ h_errno (r_h r2) = HPE_PAUSED) by (apply Q4; rewrite <- G3; now apply P4).
    destruct (done_J a1 la1 r2 er Dn1 HJ1 L1 Re E1 (or_intror O2)) as (D1 & D2 & D3 & _).
    rewrite <- D1, <- D2, <- D3, <- Q1, <- Q2, <- Q3, <- G1, <- G2, <- G3, P1, P2, P3, F1, F2, F3. split; [reflexivity|]. split; reflexivity.
  Qed.
  Lemma head_in D q y : After q0 D q -> t = D ++ y -> y <> [] -> in_head (r_h q) = true.
  Proof.
    intros Af Et Ny. assert (I0 : in_head (r_h q0) = true) by (unfold in_head; now rewrite (rd_s _ R)).
    destruct (head_after D q y Af Et Ny) as (U & O & lq & Lq & Sq). destruct Af as [[-> ->]|(ND & E & He)]; [exact I0|].
    destruct (inject_J q0 D (rd_u _ R) (rd_e _ R) ND) as (r2 & er & EJ & EI & _). rewrite E in EI. injection EI as Eq _.
    assert (HJ : JOk (r_h (rset_parsing true q0)) (jstart D (r_h q0))) by (rsimp; apply jstart_ok; [apply (uo_h _ (rd_u _ R)), (rd_e _ R)|apply (rd_e _ R)]).
    assert (O2 : h_errno (r_h r2) = HPE_OK).
    { destruct (h_errno (r_h r2)) eqn:Q; auto.
      all: try (exfalso; assert (Y : h_errno (r_h q) = h_errno (r_h r2)) by (rewrite Eq; rsimp; destruct (runpause_h r2) as (_ & Y2 & _); rewrite Y2 by congruence; reflexivity); congruence).
      exfalso. destruct (J_paused _ _ _ _ _ (le_n _) HJ EJ Q) as [lg' L]. rewrite Eq in Lq. rsimp in *. rewrite runpause_log, L in Lq. apply app_inv_head in Lq. subst lq.
      rewrite silent_app in Sq. destruct Sq as (_ & X). inversion X; subst. discriminate. }
    destruct (J_in_head _ _ _ r2 er (le_n _) HJ I0 EJ O2) as [(a1 & la1 & W)|X].
    - exfalso. apply (walk_short [] q0 t D y a1 la1); auto; [now left|eapply txt_nonempty; eauto].
    - rewrite Eq. rsimp. unfold runpause. now rewrite O2.
  Qed.
  (** kept: what the head says, and where the response ends *)
  Lemma keep_val : should_keep_alive (head_h a b c hs (r_h q0)) =
    stays_open a b hs && (bodyless c || chunked_resp hs || match o with Some _ => true | None => false end).
  Proof.
    destruct (head_facts q0 a b c hs o R CL) as (F1 & _ & F3 & F4 & _ & F6 & F7 & F8 & F9).
    unfold should_keep_alive, stays_open, needs_eof, bodyless. rewrite F1, F3, F4, F6, F7, F8, F9.
    assert (X : negb (match o with Some n => n | None => ULLONG_MAX end =? ULLONG_MAX) = match o with Some _ => true | None => false end).
    { destruct o as [n|]; [|reflexivity]. assert (N : n <= max_length). { clear -CL. remember (Some n) as on. revert n Heqon. induction CL; intros n0 En; try discriminate; auto; injection En as <-; eauto. }
      apply negb_true_iff, Z.eqb_neq. unfold max_length, ULLONG_MAX in *. lia. }
    rewrite X. destruct (c / 100 =? 1), (c =? 204), (c =? 304), (chunked_resp hs), o, ((0 <? a) && (0 <? b)), (connection_says "close" hs), (connection_says "keep-alive" hs); reflexivity.
  Qed.
End Head.

(** ** The client *)
Section HeadClient.
  Variables (zlib : bool) (gunzip : list bytes -> bytes -> bytes) (parse_url : bytes -> url).
  Variables (req : creq) (L0 : list cobs).
  Hypothesis NH : head_method (cr_method req) = true.
  (* the final response: its head t, and more bytes x *)
  Variables (t : bytes) (a b code : Z) (hs : list (bytes * bytes)) (o : option Z) (x : bytes).
  Hypotheses (HD : ResponseHead t a b code hs) (TL : blen t <= max_head - 2) (CL : ContentLength hs o) (N100 : code <> 100).
  (* an interim response *)
  Variables (i : bytes) (ia ib : Z) (ihs : list (bytes * bytes)).

  Definition Told (e : list cobs) (c : client) : Prop := exists obs, c_log c = L0 ++ obs /\ filter said obs = e.
  Definition HeadA (F : bytes) (c : client) : Prop :=
    exists q0 D q y, ready q0 /\ After q0 D q /\ t = D ++ y /\ y <> [] /\ sim (c_p c) q /\ c_in c ++ F = y ++ x.
  Definition InterA (F : bytes) (c : client) : Prop :=
    WholeResponse i ia ib 100 ihs [] /\
    exists q0 D q y, ready q0 /\ After q0 D q /\ i = D ++ y /\ y <> [] /\ sim (c_p c) q /\ c_in c ++ F = y ++ t ++ x.
  Definition kept : bool := stays_open a b hs && (bodyless code || chunked_resp hs || match o with Some _ => true | None => false end).
  Record Rest (F : bytes) (c : client) : Prop := mkRest {
    rs_f : r_field (c_p c) = []; rs_v : r_value (c_p c) = []; rs_e : h_errno (r_h (c_p c)) = HPE_OK; rs_k : should_keep_alive (r_h (c_p c)) = kept;
    rs_x : suffix x (c_in c ++ F); rs_xf : suffix x F }.
  Record Done (F : bytes) (c : client) : Prop := mkDone {
    dn_n : c_next c = None; dn_d : c_dec c = None; dn_f : r_field (c_p c) = []; dn_v : r_value (c_p c) = []; dn_e : h_errno (r_h (c_p c)) = HPE_PAUSED;
    dn_x : suffix x (c_in c ++ F) \/ c_in c = []; dn_xf : suffix x F; dn_k : Ended req kept c }.
  Inductive Hd (F : bytes) : ccfg -> Prop :=
  | Hd_idle c : Base req c -> Told [] c -> r_content (c_p c) = [] -> r_parsing (c_p c) = false -> HeadA F c \/ InterA F c -> Hd F (CRun c [])
  | Hd_headers c l er ph : Base req c -> Told [CHeaders code hs] c -> r_content (c_p c) = [] -> r_headers (c_p c) = hs -> status c = code -> Rest F c ->
      Hd F (CRun c [KcSig SgHeaders; KcHeaders l er ph])
  | Hd_done c l er ph : c_pending c = false -> Told [CHeaders code hs; CFinished NoError code hs []] c -> Done F c -> Hd F (CRun c [KcSig SgFinished; KcParse l er ph]).

  Lemma baseH_p v c : Base req c -> Base req (cset_p v c).
  Proof. intros [A B C D]. constructor; clsimp; auto. Qed.
  Lemma told_p e v c : Told e c -> Told e (cset_p v c).
  Proof. intros (obs & L & E). exists obs. auto. Qed.

  (* http_parser_execute reads the head *)
  Lemma parse_head F l ph c q0 q r2 er lg : Base req c -> Told [] c -> r_content (c_p c) = [] -> ready q0 ->
    sim (c_p c) q -> JOk (r_h q) l -> NB l -> J q l = Some (r2, er) -> r_log q = r_log q0 ++ lg -> silent lg ->
    in_head (r_h q) = true ->
    (forall a' la, Walk q l a' la -> r_field a' = [] /\ r_value a' = [] /\ should_keep_alive (r_h a') = kept /\ h_status (r_h a') <> 100 /\ suffix x (c_in c ++ F) /\ suffix x F) ->
    ((exists D y, er = [] /\ h_errno (r_h r2) = HPE_OK /\ After q0 D (rset_parsing false r2) /\ t = D ++ y /\ y <> [] /\ c_in c ++ F = y ++ x /\
        exists lg, r_log r2 = r_log q0 ++ lg /\ silent lg) \/
     (exists e, r_log r2 = r_log q0 ++ RBegin :: RHeaders a b code hs :: e)) ->
    Hd F (parse gunzip l ph c [] (finish gunzip ph [] (cresume zlib gunzip []))).
  Proof.
    intros B Tl Ct R0 Sm HJ HN EJ Lq Sq IHd Wk Out.
    pose proof (parse_sim _ _ _ Sm HJ HN) as X. rewrite EJ in X. unfold parse.
    assert (Mu : (mu (r_h q) l <= pfuel l)%nat) by (pose proof (mu_le (r_h q) l); unfold pfuel; lia).
    destruct (prun (pfuel l) (c_p c) l) as [p' er'|cb p' l' er'|] eqn:Pr; cbn [SimRes] in X; [| |contradiction].
    - destruct X as (q' & s & E & Q & NP). injection E as -> <-.
      assert (Cp : r_content p' = []) by (destruct (qu_c _ _ _ _ _ Q) as [->|[_ ->]]; auto).
      destruct Out as [(D & y & -> & O & Af & Et & Ny & Ein & _)|(e & Le)].
      + assert (Op : h_errno (r_h p') = HPE_OK) by (rewrite (si_h _ _ (qu_sim _ _ _ _ _ Q)); exact O).
        rewrite (finish_cont zlib); clsimp; auto; [|apply (ba_pending _ _ B)].
        apply Hd_idle; [now apply baseH_p, baseH_p|now apply told_p, told_p|exact Cp|reflexivity|]. left. exists q0, D, (rset_parsing false q'), y. clsimp.
        do 4 (split; [assumption|]). split; [apply sim_parsing, (qu_sim _ _ _ _ _ Q)|exact Ein].
      + exfalso. rewrite (qu_log _ _ _ _ _ Q), Lq, <- app_assoc in Le. apply app_inv_head in Le.
        assert (I : In (RHeaders a b code hs) (lg ++ s)) by (rewrite Le; right; now left). apply in_app_iff in I as [I|I].
        * unfold silent in Sq. rewrite Forall_forall in Sq. specialize (Sq _ I). discriminate.
        * pose proof (qu_ev _ _ _ _ _ Q) as QE. rewrite Forall_forall in QE. exact (N100 (QE _ I)).
    - destruct X as (q' & s & Q & HJ' & HN' & X).
      (* the first callback that counts *)
      assert (Next : forall e q1, e <> [] -> Forall (fun z => ~ quiet_ev z) e -> r_log q1 = r_log q' ++ e -> (exists e2, r_log r2 = r_log q1 ++ e2) ->
         exists e', e = RHeaders a b code hs :: e').
      { intros e q1 Ne Fe L1 (e2 & L2). rewrite L1, (qu_log _ _ _ _ _ Q), Lq, <- !app_assoc in L2. destruct e as [|z e]; [congruence|]. inversion Fe as [|? ? Fz _]; subst.
        destruct Out as [(D & y & _ & _ & _ & _ & _ & _ & lg' & Lr & Sr)|(e' & Le)].
        - exfalso. rewrite Lr in L2. apply app_inv_head in L2. subst lg'. rewrite !silent_app in Sr. destruct Sr as (_ & _ & Sr & _). inversion Sr; subst. apply Fz. exact Logic.I.
        - rewrite Le in L2. apply app_inv_head in L2. pose proof (qu_ev _ _ _ _ _ Q) as QE.
          assert (P2 : Forall (fun z => quiet_ev z) (lg ++ s)).
          { apply Forall_app. split; [|exact QE]. eapply Forall_impl; [|exact Sq]. intros ? ->. exact Logic.I. }
          cbn [app] in L2. rewrite app_assoc in L2. remember (lg ++ s) as u. clear -L2 P2 N100 Fz. destruct u as [|u1 [|u2 u]].
          + cbn [app] in L2. injection L2 as <- L2. exfalso. apply Fz. exact Logic.I.
          + cbn [app] in L2. injection L2 as <- <- L2. eauto.
          + exfalso. cbn [app] in L2. injection L2 as <- <- L2. inversion P2 as [|? ? _ P3]; subst. inversion P3; subst. exact (N100 H1). }
      destruct cb as [|y|y| |y|]; try contradiction.
      + destruct X as [Nst EJ']. pose proof (sim_push _ _ (qu_sim _ _ _ _ _ Q)) as SP. cbn zeta.
        destruct (Next [RHeaders (h_major (r_h (pushHeader q'))) (h_minor (r_h (pushHeader q'))) (h_status (r_h (pushHeader q'))) (r_headers (pushHeader q'))] (on_cb CbHeaders q')) as (e' & Ee); [discriminate| | |eapply J_log; eauto|].
        { constructor; [|constructor]. assert (Eq : h_status (r_h (pushHeader q')) = h_status (r_h q')) by (unfold pushHeader; destruct (r_lwv q'); reflexivity). rewrite Eq. exact Nst. }
        { cbn [on_cb]. unfold rlog. rsimp. unfold pushHeader. destruct (r_lwv q'); reflexivity. }
        injection Ee as _ _ E3 E4 _.
        assert (Es : h_status (r_h (pushHeader p')) = code) by (rewrite (si_h _ _ SP); exact E3). assert (Eh : r_headers (pushHeader p') = hs) by (rewrite (si_hs _ _ SP); exact E4).
        assert (Cp : r_content (pushHeader p') = []).
        { assert (Y : r_content (pushHeader p') = r_content p') by (unfold pushHeader; destruct (r_lwv p'); reflexivity). rewrite Y. destruct (qu_c _ _ _ _ _ Q) as [->|[_ ->]]; auto. }
        rewrite Es, Eh. apply Hd_headers; clsimp; auto.
        * destruct B as [B1 B2 B3 B4]. constructor; clsimp; auto.
        * destruct Tl as (obs & Lo & Fo). exists (obs ++ [CHeaders code hs]). clsimp. rewrite Lo, <- app_assoc. split; [reflexivity|]. now rewrite filter_app, Fo.
        * destruct (prun_walk _ _ _ _ _ _ _ Sm HJ HN Mu IHd Pr) as [(q1 & S1 & W)|(a1 & la1 & W & St)]; [|destruct (Wk _ _ W) as (_ & _ & _ & K & _); congruence].
          destruct (Wk _ _ W) as (K1 & K2 & K3 & _ & K5 & K6). pose proof (sim_push _ _ S1) as SP1.
          assert (Y : r_field (on_cb CbHeaders q1) = r_field (pushHeader q1) /\ r_value (on_cb CbHeaders q1) = r_value (pushHeader q1) /\ r_h (on_cb CbHeaders q1) = r_h (pushHeader q1)) by (split; [reflexivity|split; reflexivity]).
          destruct Y as (Y1 & Y2 & Y3). rewrite Y1 in K1. rewrite Y2 in K2. rewrite Y3 in K3.
          constructor; clsimp; auto; [now rewrite (si_f _ _ SP1)|now rewrite (si_v _ _ SP1)| |now rewrite (si_h _ _ SP1)].
          rewrite (proj1 (push_keeps p')), (si_h _ _ (qu_sim _ _ _ _ _ Q)). exact (jo_errno _ _ HJ').
      + exfalso. destruct X as [Ny EJ']. destruct (Next (map RByte y) (on_cb (CbBody y) q')) as (e' & Ee); [destruct y; [congruence|discriminate]| |reflexivity|eapply J_log; eauto|].
        { apply Forall_forall. intros z I. apply in_map_iff in I as (w & <- & _). exact (fun x => x). }
        destruct y; discriminate.
      + exfalso. assert (X1 : r2 = on_cb CbComplete q') by congruence. destruct (Next [RComplete] (on_cb CbComplete q')) as (e' & Ee); [discriminate| | | |discriminate].
        { constructor; [exact (fun x => x)|constructor]. } { reflexivity. } { exists []. rewrite app_nil_r. now f_equal. }
  Qed.

  Lemma start_head F ph c q0 D q y d z : Base req c -> Told [] c -> r_content (c_p c) = [] -> ready q0 -> After q0 D q -> t = D ++ y -> y <> [] ->
    sim (c_p c) q -> d <> [] -> d ++ z = y ++ x -> c_in c ++ F = z -> suffix z F ->
    Hd F (parse gunzip (jstart d (r_h (c_p c))) ph c [] (finish gunzip ph [] (cresume zlib gunzip []))).
  Proof.
    intros B Tl Ct R0 Af Et Ny Sm Nd Ez Ein Sz. destruct (head_after q0 t a b code hs R0 HD D q y Af Et Ny) as (U & O & lg & Lq & Sq).
    destruct (head_next q0 t a b code hs o R0 HD TL CL D q y d z x Af Et Ny Nd Ez) as (r2 & er & EJ & Out).
    rewrite (si_h _ _ Sm). eapply (parse_head F _ ph c q0 (rset_parsing true q) r2 er lg); auto.
    - destruct Sm; constructor; rsimp; auto.
    - rsimp. apply jstart_ok; auto. apply (uo_h _ U); auto.
    - apply nb_none. reflexivity.
    - rsimp. exact (head_in q0 t a b code hs o R0 HD TL CL D q y Af Et Ny).
    - intros a' la W. destruct (walk_fields q0 t a b code hs o R0 HD TL CL D q y d z x a' la Af Et Ny Nd Ez W) as ((d' & Ed) & K1 & K2 & K3).
      split; [exact K1|]. split; [exact K2|]. split; [rewrite K3; exact (keep_val q0 a b code hs o R0 CL)|].
      assert (Xz : x = d' ++ z) by (rewrite Ed, <- app_assoc in Ez; now apply app_inv_head in Ez).
      split; [|split; [exists d'; now rewrite Ein|destruct Sz as [u Sz]; exists (d' ++ u); now rewrite <- app_assoc, <- Sz]].
      destruct Out as [(y2 & Ey & Ny2 & _)|(_ & e & L)].
      { exfalso. rewrite Ed in Ey. rewrite <- (app_nil_r y) in Ey at 1. rewrite <- app_assoc in Ey. apply app_inv_head in Ey. symmetry in Ey. apply app_eq_nil in Ey as [_ Ey]. congruence. }
      assert (HJ : JOk (r_h (rset_parsing true q)) (jstart d (r_h q))) by (rsimp; apply jstart_ok; auto; apply (uo_h _ U); auto).
      destruct (walk_J _ _ _ _ W HJ) as (E & _). rewrite EJ in E. symmetry in E. apply jrun_log in E as (e2 & L2).
      destruct (walk_log _ _ _ _ W) as (l0 & L3 & S3). rsimp in *. rewrite L2, L3, Lq, <- !app_assoc in L. apply app_inv_head in L.
      intros St. rewrite St in L. cbn [app] in L. assert (X : In (RHeaders (h_major (r_h a')) (h_minor (r_h a')) 100 (r_headers a')) (RBegin :: RHeaders a b code hs :: e)) by (rewrite <- L, !in_app_iff; right; right; now left).
      destruct (lg ++ l0) as [|u1 [|u2 u]] eqn:El; rewrite app_assoc, El in L; cbn [app] in L; [discriminate|injection L; congruence|].
      injection L as -> -> L. assert (Sl : silent (lg ++ l0)) by (rewrite silent_app; auto). rewrite El in Sl. inversion Sl as [|? ? _ S4]; subst. inversion S4; subst. discriminate.
    - destruct Out as [(y' & Ey & Ny' & Ee & O2 & A2 & S2)|(_ & Out)]; [left|right; exact Out]. exists (D ++ d), y'. do 3 (split; [assumption|]).
      split; [rewrite <- app_assoc, <- Ey; exact Et|]. split; [exact Ny'|]. split; [|exact S2]. rewrite Ein. rewrite Ey, <- app_assoc in Ez. now apply app_inv_head in Ez.
  Qed.

  Lemma parse_inter F l c q0 q r2 er lg lgr lgx : Base req c -> Told [] c -> r_content (c_p c) = [] -> WholeResponse i ia ib 100 ihs [] -> ready q0 ->
    sim (c_p c) q -> JOk (r_h q) l -> NB l ->
    J q l = Some (r2, er) -> r_parsing (c_p c) = true -> r_log q = r_log q0 ++ lg -> r_log r2 = r_log q0 ++ lgr -> reported ia ib 100 ihs [] = lgr ++ lgx ->
    ((exists D y, er = [] /\ h_errno (r_h r2) = HPE_OK /\ After q0 D (rset_parsing false r2) /\ i = D ++ y /\ y <> [] /\ c_in c ++ F = y ++ t ++ x) \/
     (er ++ c_in c ++ F = t ++ x /\ h_errno (r_h r2) = HPE_PAUSED /\ completed q0 ia ib 100 ihs [] (rset_parsing false (runpause r2)))) ->
    Hd F (parse gunzip l First c [] (finish gunzip First [] (cresume zlib gunzip []))).
  Proof.
    intros B Tl Co Wi R0 S HJ HN EJ Pa Lq Lr Er Out.
    pose proof (parse_sim _ _ _ S HJ HN) as X. rewrite EJ in X. unfold parse.
    destruct (prun (pfuel l) (c_p c) l) as [p' er'|cb p' l' er'|]; cbn [SimRes] in X; [| |contradiction].
    - destruct X as (q' & s & E & Q & NP). injection E as -> <-.
      destruct Out as [(D & y & -> & O & Af & Et & Ny & Ein)|(_ & O & _)]; [|congruence].
      assert (Op : h_errno (r_h p') = HPE_OK) by (rewrite (si_h _ _ (qu_sim _ _ _ _ _ Q)); exact O).
      rewrite (finish_cont zlib); clsimp; auto; [|apply (ba_pending _ _ B)].
      assert (Cp : r_content p' = []) by (destruct (qu_c _ _ _ _ _ Q) as [->|[_ ->]]; auto).
      apply Hd_idle; [now apply baseH_p, baseH_p|now apply told_p, told_p|exact Cp|reflexivity|]. right. split; [exact Wi|]. exists q0, D, (rset_parsing false q'), y. clsimp.
      do 4 (split; [assumption|]). split; [apply sim_parsing, (qu_sim _ _ _ _ _ Q)|exact Ein].
    - destruct X as (q' & s & Q & HJ' & HN' & X).
      assert (Next : forall e q1, r_log q1 = r_log q' ++ e -> (exists e2, r_log r2 = r_log q1 ++ e2) ->
         forall z, In z e -> In z (reported ia ib 100 ihs [])).
      { intros e q1 L1 (e2 & L2) z I. assert (El : lgr = lg ++ s ++ e ++ e2).
        { apply (app_inv_head (r_log q0)). rewrite <- Lr, L2, L1, (qu_log _ _ _ _ _ Q), Lq, <- !app_assoc. reflexivity. }
        rewrite Er, El. rewrite !in_app_iff. tauto. }
      destruct cb as [|y|y| |y|]; try contradiction.
      + exfalso. destruct X as [Nst EJ'].
        assert (I : In (RHeaders (h_major (r_h (pushHeader q'))) (h_minor (r_h (pushHeader q'))) (h_status (r_h (pushHeader q'))) (r_headers (pushHeader q'))) (reported ia ib 100 ihs [])).
        { match goal with |- In ?e _ => apply (Next [e] (on_cb CbHeaders q')) end; [|eapply J_log; eauto|now left].
          cbn [on_cb]. unfold rlog. rsimp. unfold pushHeader. destruct (r_lwv q'); reflexivity. }
        assert (Eq : h_status (r_h (pushHeader q')) = h_status (r_h q')) by (unfold pushHeader; destruct (r_lwv q'); reflexivity).
        rewrite Eq in I. cbn in I. destruct I as [I|[I|[I|[]]]]; try discriminate. injection I as _ _ I _. congruence.
      + exfalso. destruct X as [Ny EJ']. destruct y as [|ch y]; [congruence|].
        assert (I : In (RByte ch) (reported ia ib 100 ihs [])).
        { apply (Next (map RByte (ch :: y)) (on_cb (CbBody (ch :: y)) q')); [reflexivity|eapply J_log; eauto|now left]. }
        cbn in I. destruct I as [I|[I|[I|[]]]]; discriminate.
      + assert (X1 : r2 = on_cb CbComplete q') by congruence. assert (X2 : er = er') by congruence. clear X. subst r2 er.
        destruct Out as [(D & y & _ & O & _)|(Ein & O & C)].
        { exfalso. cbn [on_cb] in O. rsimp in *. rewrite hpause_errno in O; [discriminate|]. left. exact (jo_errno _ _ HJ'). }
        assert (Pq : forall r, r_headers (runpause r) = r_headers r /\ h_status (r_h (runpause r)) = h_status (r_h r) /\ r_field (runpause r) = r_field r /\ r_value (runpause r) = r_value r /\ r_lwv (runpause r) = r_lwv r)
          by (intros r; unfold runpause; destruct (h_errno (r_h r)); auto).
        destruct (Pq (on_cb CbComplete q')) as (P1 & P2 & P3 & P4 & P5).
        pose proof (cp_s _ _ _ _ _ _ _ C) as Cs. unfold statusCode in Cs. rsimp in *. rewrite P2 in Cs. cbn [on_cb] in Cs. rsimp in *. rewrite status_hpause in Cs.
        pose proof (qu_sim _ _ _ _ _ Q) as SQ.
        assert (E1 : h_status (r_h p') = 100) by (rewrite (si_h _ _ SQ); auto).
        cbn zeta. rewrite E1. cbn [Z.eqb Pos.eqb].
        pose proof (cp_c' _ _ _ _ _ _ _ C) as RC. set (q1 := rclear _) in RC.
        set (p1 := mkRP hinit (r_field p') (r_value p') (r_lwv p') false [] [] (r_log p')).
        assert (Pp : r_parsing p' = true) by (rewrite (qu_p _ _ _ _ _ Q); exact Pa).
        set (c1 := cset_p p1 (cset_dec None (cset_p p' c))).
        assert (EI : injected (cset_p (rset_h (hpause (r_h (rclear p'))) (rclear p')) (cset_dec None (cset_p p' c))) = c1).
        { unfold injected, rclear. clsimp. rsimp. rewrite Pp. rsimp. reflexivity. }
        assert (B1 : Base req c1) by (destruct B as [X1 X2 X3 X4]; subst c1; constructor; clsimp; auto).
        assert (S1 : sim p1 q1).
        { subst p1 q1. unfold rclear. rsimp. destruct SQ as [Y1 Y2 Y3 Y4 Y5]. constructor; rsimp; rewrite ?P3, ?P4, ?P5; auto. }
        assert (T1 : Told [] c1) by (destruct Tl as (obs & Lo & Fo); exists obs; auto).
        assert (Nt : t <> []) by (eapply txt_nonempty; eauto).
        cbn [finish]. unfold after1. rewrite EI. cbn zeta. rewrite (ba_pending _ _ B1). cbn [negb].
        assert (NE : hasError (c_p c1) = false) by reflexivity. rewrite NE. cbn [negb andb].
        destruct er' as [|ch er'].
        * change (beqb [] []) with true. cbn [negb]. unfold check_error. rewrite NE. unfold read_tail. rewrite (ba_pending _ _ B1). cbn [cresume].
          apply Hd_idle; [exact B1|exact T1|reflexivity|reflexivity|]. left. exists q1, [], q1, t. split; [exact RC|]. split; [now left|]. split; [reflexivity|].
          split; [exact Nt|]. split; [exact S1|]. exact Ein.
        * change (beqb (ch :: er') []) with false. cbn [negb]. unfold inject2. clsimp. rsimp.
          change (is_ok (h_errno (r_h (c_p c1)))) with true.
          set (c2 := cset_p (rset_parsing true (c_p c1)) c1). change (r_h (c_p c1)) with (r_h (c_p c2)).
          apply (start_head F Second c2 q1 [] q1 t (ch :: er') (c_in c ++ F)); subst c2; clsimp; auto.
          { destruct B1; constructor; clsimp; auto. }
          { now left. }
          { now apply sim_parsing_l. }
          { discriminate. }
          { now exists (c_in c). }
  Qed.

  (* changes that do not matter *)
  Record touchH (F : bytes) (c : client) (F' : bytes) (c' : client) : Prop := mkTouchH {
    th_p : sim (c_p c') (c_p c); th_pa : r_parsing (c_p c') = r_parsing (c_p c); th_c : r_content (c_p c) = [] -> r_content (c_p c') = []; th_b : Base req c';
    th_in : c_in c' ++ F' = c_in c ++ F; th_f : suffix F F'; th_log : exists u, c_log c' = c_log c ++ u /\ filter said u = [] }.
  Lemma touchH_ok F c F' c' stk : touchH F c F' c' -> c_pending c = true -> Hd F (CRun c stk) -> Hd F' (CRun c' stk).
  Proof.
    intros [T1 T2 T0 T3 T4 Tf (u & T5 & T6)] P V.
    assert (Tl : forall e, Told e c -> Told e c').
    { intros e (obs & Lo & Fo). exists (obs ++ u). rewrite T5, Lo, app_assoc. split; [reflexivity|]. now rewrite filter_app, Fo, T6, app_nil_r. }
    inversion V as [c0 B Q Ct Pa H|c0 l er ph B Q Ct Eh Es Rs|c0 l er ph Pn]; subst.
    - apply Hd_idle; auto; [congruence|]. destruct H as [(q0 & D & q & y & H1 & H2 & H3 & H4 & H5 & H6)|(Wi & q0 & D & q & y & H1 & H2 & H3 & H4 & H5 & H6)]; [left|right; split; [exact Wi|]];
        exists q0, D, q, y; do 4 (split; [assumption|]); (split; [eapply sim_trans; eauto|]); now rewrite T4.
    - assert (Sc : r_headers (c_p c') = r_headers (c_p c) /\ status c' = status c) by (unfold status; rewrite (si_h _ _ T1), (si_hs _ _ T1); auto). destruct Sc as [S1 S2].
      apply Hd_headers; auto; try congruence. destruct Rs as [R1 R2 R3 R4 R5 R6].
      constructor; rewrite ?(si_f _ _ T1), ?(si_v _ _ T1), ?(si_h _ _ T1), ?T4; auto.
      destruct R6 as [u1 ->], Tf as [u2 ->]. exists (u1 ++ u2). now rewrite app_assoc.
    - congruence.
  Qed.
  Lemma hd_base F c stk : Hd F (CRun c stk) -> c_pending c = true -> Base req c.
  Proof. intros V P. inversion V; subst; auto. congruence. Qed.
  Lemma hd_cont F c stk : Hd F (CRun c stk) -> c_pending c = true -> Cont stk (cresume zlib gunzip stk).
  Proof. intros V P c'. inversion V; subst; reflexivity. Qed.

  Lemma readyRead_head F c : Hd F (CRun c []) -> c_pending c = true -> Hd F (device_readyRead gunzip c [] (cresume zlib gunzip [])).
  Proof.
    intros V P. inversion V as [c0 B Q Ct Pa H| |]; subst. unfold device_readyRead. rewrite P. cbn [negb].
    destruct (c_in c) as [|w ws] eqn:Ci; [exact V|]. set (inp := w :: ws) in *.
    set (room := if 0 <? c_rbuf c then _ else _). destruct (Z.leb_spec room 0) as [Hr|Hr]; [exact V|]. rewrite Pa.
    set (n := Z.to_nat (Z.min room (blen inp))).
    set (c1 := cset_p (rset_parsing true (c_p c)) (cset_dev (c_dev c) (c_unsent c) (skipn n inp) c)).
    assert (Nd : firstn n inp <> []).
    { apply firstn_pos; [|subst inp; discriminate]. subst n. assert (0 < blen inp) by (subst inp; rewrite blen_cons; pose proof (blen_nonneg ws); lia). lia. }
    assert (Ed : firstn n inp ++ skipn n inp = inp) by apply firstn_skipn.
    assert (B1 : Base req c1) by (destruct B; subst c1; constructor; clsimp; auto).
    assert (Q1 : Told [] c1) by (destruct Q as (obs & Lo & Fo); exists obs; subst c1; clsimp; auto).
    destruct H as [(q0 & D & q & y & R0 & Af & Et & Ny & Sm & Ein)|(Wi & q0 & D & q & y & R0 & Af & Et & Ny & Sm & Ein)]; rewrite Ci in Ein.
    - destruct (head_after q0 t a b code hs R0 HD D q y Af Et Ny) as (U & O & _).
      assert (O1 : is_ok (h_errno (r_h (c_p c1))) = true) by (subst c1; clsimp; rsimp; rewrite (si_h _ _ Sm), O; reflexivity). rewrite O1.
      apply (start_head F First c1 q0 D q y (firstn n inp) (skipn n inp ++ F)); auto; try (subst c1; clsimp; auto; fail).
      + subst c1. clsimp. now apply sim_parsing_l.
      + now rewrite app_assoc, Ed.
      + now exists (skipn n inp).
    - destruct (after_ok q0 i ia ib 100 ihs [] R0 Wi D q y Af Et Ny) as (U & O & lg & more & Lq & _).
      assert (O1 : is_ok (h_errno (r_h (c_p c1))) = true) by (subst c1; clsimp; rsimp; rewrite (si_h _ _ Sm), O; reflexivity). rewrite O1.
      assert (Ez : firstn n inp ++ (skipn n inp ++ F) = y ++ t ++ x) by now rewrite app_assoc, Ed.
      destruct (after_next q0 i ia ib 100 ihs [] R0 Wi D q y (firstn n inp) _ (t ++ x) Af Et Ny Nd Ez) as (r2 & er & EJ & Out).
      assert (Lr : exists lgr lgx, r_log r2 = r_log q0 ++ lgr /\ reported ia ib 100 ihs [] = lgr ++ lgx).
      { destruct Out as [(y' & _ & _ & _ & _ & _ & l1 & l2 & L1 & L2 & _)|(_ & _ & C)]; [eauto|].
        pose proof (cp_l _ _ _ _ _ _ _ C) as L. rsimp in *. rewrite runpause_log in L. exists (reported ia ib 100 ihs []), []. now rewrite app_nil_r. }
      destruct Lr as (lgr & lgx & Lr & Er).
      assert (Eh : r_h (c_p c1) = r_h q) by (subst c1; clsimp; rsimp; apply (si_h _ _ Sm)). rewrite Eh.
      apply (parse_inter F _ c1 q0 (rset_parsing true q) r2 er lg lgr lgx); auto.
      + subst c1. clsimp. now apply sim_parsing.
      + rsimp. apply jstart_ok; auto. apply (uo_h _ U); auto.
      + apply nb_none. reflexivity.
      + subst c1. clsimp. destruct Out as [(y' & Ey & Ny' & -> & O2 & Af2 & _)|(Ed2 & P2 & C)].
        * left. exists (D ++ firstn n inp), y'. split; [reflexivity|]. split; [exact O2|]. split; [exact Af2|]. split; [rewrite <- app_assoc, <- Ey; exact Et|].
          split; [exact Ny'|]. rewrite Ey, <- !app_assoc in Ez. now apply app_inv_head in Ez.
        * right. split; [|split; [exact P2|exact C]]. rewrite Ed2, <- !app_assoc in Ez. now apply app_inv_head in Ez.
  Qed.

  Lemma return_head F c stk : Hd F (CRun c stk) -> c_pending c = true -> Hd F (cstep zlib gunzip parse_url (CRun c stk) CaReturn).
  Proof.
    intros V P. cbn [cstep]. inversion V as [c0 B Q Ct Pa H|c0 l er ph B Q Ct Eh Es Rs|c0 l er ph Pn]; subst.
    - exact V.
    - cbn [cresume]. unfold headers_tail. rewrite head_lower, (ba_req _ _ B), NH. unfold emit_finished.
      set (c1 := cset_p _ c). assert (X : c_pending (complete c1) = false /\ c_log (complete c1) = c_log c /\ c_error (complete c1) = NoError /\ c_p (complete c1) = c_p c1).
      { unfold complete. clsimp. destruct (c_timeout c1 =? 0); [unfold dev_close; subst c1; clsimp; rewrite (ba_error _ _ B); auto|].
        destruct (should_keep_alive (r_h (c_p c1))); unfold dev_close; subst c1; clsimp; rewrite (ba_error _ _ B); auto. }
      destruct X as (X1 & X2 & X3 & X4). apply Hd_done; [clsimp; exact X1| |].
      2: { destruct Rs as [R1 R2 R3 R4 R5 R6].
        assert (Y : c_next (complete c1) = c_next c /\ c_dec (complete c1) = None /\ (c_in (complete c1) = c_in c \/ c_in (complete c1) = []) /\ c_timeout (complete c1) = c_timeout c).
        { unfold complete. clsimp. subst c1. clsimp. rsimp. destruct (Z.eqb_spec (c_timeout c) 0); [unfold dev_close; clsimp; auto|].
          destruct (should_keep_alive (hpause (r_h (c_p c)))); unfold dev_close; clsimp; auto. }
        destruct Y as (Y1 & Y2 & Y3 & Y4).
        assert (Y5 : Ended req kept (complete c1)).
        { rewrite <- (ba_req _ _ B). change (c_req c) with (c_req c1). apply complete_ended; subst c1; clsimp; [apply (ba_dev _ _ B)|]. rsimp. rewrite <- R4. unfold hpause. destruct (h_errno _); reflexivity. } constructor; clsimp; rewrite ?X4; subst c1; clsimp; rsimp; auto.
        - rewrite Y1. apply (ba_next _ _ B).
        - apply hpause_errno. now left.
        - destruct Y3 as [->|Y3]; auto.
}
      destruct Q as (obs & Lo & Fo).
      exists (obs ++ [CFinished NoError (status c) (r_headers (c_p c)) []]). clsimp. unfold status at 1. rewrite X2, X3, X4, Lo. subst c1. clsimp. rsimp. rewrite status_hpause, Ct, <- app_assoc. split; [reflexivity|].
      rewrite filter_app, Fo, Es, Eh. reflexivity.
    - congruence.
  Qed.

  Lemma step_head F g act bytes : Hd (bytes ++ F) g -> receiving act g -> bytes = (match act with CaArrive y => y | _ => [] end) ->
    Hd F (cstep zlib gunzip parse_url g act).
  Proof.
    intros V Q Eb. destruct g as [c stk|]; [|contradiction]. cbn [receiving] in Q. destruct Q as [P Q].
    pose proof (hd_base _ _ _ V P) as B. pose proof (hd_cont _ _ _ V P) as G.
    assert (Tr : forall c', touchH (bytes ++ F) c F c' -> Hd F (CRun c' stk)) by (intros c' T; eapply touchH_ok; eauto).
    assert (TI : forall r, bytes = [] -> touchH (bytes ++ F) c F (cemit [CIgnored r] c)).
    { intros r ->. destruct B as [B1 B2 B3 B4]. constructor; clsimp; auto; [apply sim_refl|constructor; clsimp; auto|apply suffix_refl|]. exists [CIgnored r]. auto. }
    assert (T0 : forall c', c_p c' = c_p c -> Base req c' -> c_in c' = c_in c ++ bytes -> c_log c' = c_log c -> touchH (bytes ++ F) c F c').
    { intros c' E1 E2 E3 E4. constructor; rewrite ?E1, ?E3, ?E4; auto using sim_refl; [now rewrite <- app_assoc|now exists bytes|]. exists []. now rewrite app_nil_r. }
    destruct act as [op| | |y| |rem gone| |late|p]; subst bytes; cbn [app] in *.
    - cbn [cstep]. pose proof B as B0. destruct B as [B1 B2 B3 B4].
      destruct op as [r| | | |n|n]; cbn [do_cop] in *; try contradiction.
      + unfold request. rewrite P, G. apply Tr, TI. reflexivity.
      + rewrite G. apply Tr. constructor; clsimp; auto; [apply sim_content, sim_refl|constructor; clsimp; auto|apply suffix_refl|exists []; now rewrite app_nil_r].
      + unfold followRedirection. destruct (redirected c); [unfold request; rewrite P, G; apply Tr, TI; reflexivity|]. rewrite G. apply Tr, T0; auto. now rewrite app_nil_r.
      + rewrite G. apply Tr, T0; clsimp; auto; [constructor; clsimp; auto|now rewrite app_nil_r].
      + rewrite G. apply Tr, T0; clsimp; auto; [constructor; clsimp; auto|now rewrite app_nil_r].
    - now apply return_head.
    - subst stk. cbn [cstep]. now apply readyRead_head.
    - cbn [cstep]. unfold connected. destruct B as [B1 B2 B3 B4]. rewrite B2. apply Tr, T0; clsimp; auto. constructor; clsimp; auto.
    - cbn [cstep]. rewrite (ba_dev _ _ B). apply Tr, T0; auto. now rewrite app_nil_r.
    - contradiction.
    - cbn [cstep]. destruct B as [B1 B2 B3 B4]. apply Tr. rewrite B2. apply T0; clsimp; auto; [constructor; clsimp; auto|now rewrite app_nil_r].
    - cbn [cstep]. destruct B as [B1 B2 B3 B4]. apply Tr, T0; clsimp; auto; [constructor; clsimp; auto|now rewrite app_nil_r].
    - cbn [cstep]. destruct B as [B1 B2 B3 B4]. apply Tr, T0; clsimp; auto; [constructor; clsimp; auto|now rewrite app_nil_r].
  Qed.
  Lemma run_head : forall l F g, Hd (arrived l ++ F) g -> receiving_run (cstep zlib gunzip parse_url) g l ->
    Hd F (crun zlib gunzip parse_url g l).
  Proof.
    induction l as [|act l IH]; intros F g V Q; [exact V|]. destruct Q as [Q1 Q2].
    unfold arrived in V. cbn [map concat] in V. rewrite <- app_assoc in V.
    exact (IH _ _ (step_head _ g act _ V Q1 eq_refl) Q2).
  Qed.
End HeadClient.
