(** The views handed to the handler: null-terminating the fields in the shared buffer does not change what
    the views show (except requestUri of a target with an empty query).  Lemmas about Conn.v. *)
From Verif Require Import Bytes ByteHelpers Thin Helpers ReqGrammar TextSpec ThinFields ThinTop Conn ConnSpec.
Open Scope Z_scope.

(** [agree P b b']: same length, same bytes at all positions not in P *)
Definition agree (P : Z -> Prop) (b b' : bytes) : Prop :=
  length b = length b' /\ forall i : nat, ~ P (Z.of_nat i) -> nth_error b i = nth_error b' i.

Lemma agree_refl P b : agree P b b.
Proof. split; auto. Qed.
Lemma agree_trans P a b c : agree P a b -> agree P b c -> agree P a c.
Proof. intros (H1 & H2) (H3 & H4). split; [congruence|]. intros i Hi. rewrite H2; auto. Qed.
Lemma agree_mono (P Q : Z -> Prop) a b : (forall i, P i -> Q i) -> agree P a b -> agree Q a b.
Proof. intros H (L & E). split; auto. Qed.
Lemma agree_sym P a b : agree P a b -> agree P b a.
Proof. intros (L & E). split; auto. intros. symmetry. auto. Qed.

Lemma set_nth_other i j c b : i <> j -> nth_error (set_nth i c b) j = nth_error b j.
Proof.
  revert i j. induction b as [|x b IH]; intros i j H; destruct i, j; cbn; auto; try congruence.
Qed.
Lemma set_nth_same i c b : (i < length b)%nat -> nth_error (set_nth i c b) i = Some c.
Proof. revert i. induction b as [|x b IH]; intros [|i] H; cbn in *; auto; try lia. apply IH. lia. Qed.

Lemma agree_store (P : Z -> Prop) b i c : 0 <= i -> P i -> agree P b (store b i c).
Proof.
  intros H0 Hi. split; [now rewrite store_length|]. intros j Hj. unfold store.
  symmetry. apply set_nth_other. intros E. apply Hj. rewrite <- E, Z2Nat.id; auto.
Qed.
Lemma agree_nullterm (P : Z -> Prop) b s n : (n <> 0 -> 0 <= s + n /\ P (s + n)) -> agree P b (nullterm b s n).
Proof.
  intros H. unfold nullterm. destruct (Z.eqb_spec n 0); [apply agree_refl|].
  destruct H; auto. now apply agree_store.
Qed.

Lemma nth_error_ext {A} (a b : list A) : (forall i, nth_error a i = nth_error b i) -> a = b.
Proof.
  revert b. induction a as [|x a IH]; intros [|y b] H; auto.
  - specialize (H 0%nat). discriminate.
  - specialize (H 0%nat). discriminate.
  - pose proof (H 0%nat) as H0. cbn in H0. injection H0 as ->. f_equal. apply IH. intros i. apply (H (S i)).
Qed.
Lemma nth_error_skipn' {A} (l : list A) n i : nth_error (skipn n l) i = nth_error l (n + i)%nat.
Proof. revert l. induction n; intros [|x l]; cbn; auto. now destruct i. Qed.
Lemma nth_error_firstn' {A} (l : list A) n i : nth_error (firstn n l) i = if Nat.ltb i n then nth_error l i else None.
Proof.
  revert l i. induction n as [|n IH]; intros l i; cbn [firstn].
  - now destruct i.
  - destruct l as [|x l]; destruct i as [|i]; cbn [nth_error]; auto.
    + now destruct (Nat.ltb _ _).
    + rewrite IH. reflexivity.
Qed.
Lemma nth_slice b p n i : nth_error (slice b p n) i =
  if Nat.ltb i (Z.to_nat n) then nth_error b (Z.to_nat p + i)%nat else None.
Proof. unfold slice. now rewrite nth_error_firstn', nth_error_skipn'. Qed.

Lemma agree_slice P b b' p n : agree P b b' -> 0 <= p -> (forall i, p <= i < p + n -> ~ P i) ->
  slice b' p n = slice b p n.
Proof.
  intros (L & E) Hp H. apply nth_error_ext. intros i. rewrite !nth_slice.
  destruct (Nat.ltb_spec i (Z.to_nat n)); auto. symmetry. apply E. apply H. lia.
Qed.
Lemma agree_skipn P b b' n : agree P b b' -> (forall i, P i -> i < Z.of_nat n) -> skipn n b' = skipn n b.
Proof.
  intros (L & E) H. apply nth_error_ext. intros i. rewrite !nth_error_skipn'. symmetry. apply E.
  intros Hi. apply H in Hi. lia.
Qed.
Lemma agree_app P a a' t : agree P a a' -> agree P (a ++ t) (a' ++ t).
Proof.
  intros (L & E). split; [rewrite !app_length; lia|]. intros i Hi.
  destruct (Nat.ltb_spec i (length a)) as [H|H].
  - rewrite !nth_error_app1 by lia. auto.
  - rewrite !nth_error_app2 by lia. now rewrite L.
Qed.
Lemma agree_app_inv P a b : agree P a b -> forall a1 a2, a = a1 ++ a2 -> (forall i, P i -> i < blen a1) ->
  exists b1, b = b1 ++ a2 /\ agree P a1 b1.
Proof.
  intros A a1 a2 -> H. exists (firstn (length a1) b). split.
  - rewrite <- (firstn_skipn (length a1) b) at 1. f_equal.
    rewrite (agree_skipn _ _ _ (length a1) A) by (intros i Hi; apply H in Hi; unfold blen in Hi; lia).
    rewrite skipn_app, skipn_all, Nat.sub_diag. reflexivity.
  - destruct A as (L & E). split.
    + rewrite firstn_length, <- L, app_length. lia.
    + intros i Hi. rewrite nth_error_firstn'. destruct (Nat.ltb_spec i (length a1)) as [Hl|Hl].
      * rewrite <- E by auto. now rewrite nth_error_app1.
      * apply nth_error_None. lia.
Qed.

(** ** Positions of the terminators *)
Fixpoint hterm (pos : Z) (hs : list hline) (i : Z) : Prop :=
  match hs with
  | [] => False
  | h :: t => i = pos + blen (hname h)
              \/ i = pos + blen (hname h) + 1 + Z.of_nat (hpad h) + blen (hvalue h)
              \/ hterm (pos + blen (hline_text h)) t i
  end.

Lemma hline_len h : blen (hline_text h) = blen (hname h) + 1 + Z.of_nat (hpad h) + blen (hvalue h) + 2.
Proof.
  unfold hline_text. rewrite !blen_app. change (blen (lit ":")) with 1. change (blen CRLF) with 2.
  unfold blen at 2. rewrite repeat_length. lia.
Qed.

Lemma hterm_range : forall hs pos i, hterm pos hs i -> pos <= i < pos + blen (concat (map hline_text hs)).
Proof.
  induction hs as [|h t IH]; intros pos i H; cbn [hterm] in H; [contradiction|].
  cbn [map concat]. rewrite blen_app. rewrite hline_len in *.
  pose proof (blen_nonneg (hname h)). pose proof (blen_nonneg (hvalue h)).
  pose proof (blen_nonneg (concat (map hline_text t))).
  destruct H as [->|[->|H]]; [lia|lia|]. apply IH in H. lia.
Qed.

Lemma setup_agree : forall hs pos b, 0 <= pos -> agree (hterm pos hs) b (setup_buf b (line_refs pos hs)).
Proof.
  induction hs as [|h t IH]; intros pos b Hp; cbn [line_refs]; [apply agree_refl|].
  unfold setup_buf. cbn [fold_left h_fpos h_flen h_vpos h_vlen].
  pose proof (blen_nonneg (hname h)). pose proof (blen_nonneg (hvalue h)). pose proof (hline_len h).
  eapply agree_trans; [|eapply agree_mono; [|apply IH; lia]].
  - eapply agree_trans; [|apply agree_nullterm].
    + apply agree_nullterm. intros _. split; [lia|]. cbn [hterm]. auto.
    + intros _. split; [lia|]. cbn [hterm]. right. left. lia.
  - intros i Hi. cbn [hterm]. auto.
Qed.

(** header views *)
Lemma view_headers_ok (P : Z -> Prop) : forall hs pos pre post b,
  blen pre = pos -> agree P (pre ++ concat (map hline_text hs) ++ post) b ->
  (forall i, P i -> i < pos \/ hterm pos hs i \/ pos + blen (concat (map hline_text hs)) <= i) ->
  view_headers b (line_refs pos hs) = map (fun l => (hname l, hvalue l)) hs.
Proof.
  induction hs as [|h t IH]; intros pos pre post b Hpre A HP; [reflexivity|].
  cbn [line_refs view_headers map h_fpos h_flen h_vpos h_vlen].
  cbn [map concat] in A. cbn [map concat hterm] in HP. rewrite blen_app in HP.
  pose proof (hline_len h) as HL. pose proof (blen_nonneg (hname h)). pose proof (blen_nonneg (hvalue h)).
  pose proof (blen_nonneg pre). pose proof (blen_nonneg (concat (map hline_text t))).
  assert (R : forall i, hterm (pos + blen (hline_text h)) t i -> pos + blen (hline_text h) <= i)
    by (intros i Hi; apply hterm_range in Hi; lia).
  f_equal; [f_equal|].
  - rewrite (agree_slice _ _ _ _ _ A); [|lia|intros i Hi Pi; apply HP in Pi as [|[[|[|Pi]]|]]; try lia; apply R in Pi; lia].
    unfold hline_text at 1. rewrite <- !app_assoc. rewrite <- Hpre. apply slice_mid.
  - rewrite (agree_slice _ _ _ _ _ A); [|lia|intros i Hi Pi; apply HP in Pi as [|[[|[|Pi]]|]]; try lia; apply R in Pi; lia].
    unfold hline_text at 1.
    replace (pre ++ ((hname h ++ lit ":" ++ repeat SP (hpad h) ++ hvalue h ++ CRLF) ++ concat (map hline_text t)) ++ post)
      with ((pre ++ hname h ++ lit ":" ++ repeat SP (hpad h)) ++ hvalue h ++ (CRLF ++ concat (map hline_text t) ++ post))
      by (rewrite <- !app_assoc; reflexivity).
    replace (pos + blen (hname h) + 1 + Z.of_nat (hpad h)) with (blen (pre ++ hname h ++ lit ":" ++ repeat SP (hpad h))).
    + apply slice_mid.
    + rewrite !blen_app. change (blen (lit ":")) with 1. unfold blen at 3. rewrite repeat_length. lia.
  - apply (IH _ (pre ++ hline_text h) post).
    + rewrite blen_app. lia.
    + rewrite <- !app_assoc. rewrite <- !app_assoc in A. exact A.
    + intros i Pi. apply HP in Pi as [|[[|[|Pi]]|]]; auto; lia.
Qed.

(** ** The whole request *)
Definition term (h : head) (i : Z) : Prop :=
  hterm (o_headers h) (hd_headers h) i \/ i = o_target h - 1 \/ i = o_target_end h \/ i = o_version h - 1
  \/ (spec_path (hd_target h) <> [] /\ i = o_target h + blen (spec_path (hd_target h)))
  \/ i = o_version_end h.

Lemma slice_at b pre m post p n : b = pre ++ m ++ post -> blen pre = p -> blen m = n -> slice b p n = m.
Proof. intros -> <- <-. apply slice_mid. Qed.

Lemma path_le t : blen (spec_path t) <= blen (target_text t).
Proof.
  destruct t as [|s r|p [q|]]; cbn [spec_path target_text]; try (rewrite blen_nil; apply blen_nonneg); [|lia].
  rewrite !blen_app. pose proof (blen_nonneg (lit "?")). pose proof (blen_nonneg q). lia.
Qed.

Ltac offs h := pose proof (blen_nonneg (hd_method h)); pose proof (blen_nonneg (target_text (hd_target h)));
  pose proof (blen_nonneg (fragment_text h)); pose proof (blen_nonneg (version_text h));
  pose proof (blen_nonneg (concat (map hline_text (hd_headers h))));
  pose proof (path_le (hd_target h)); pose proof (blen_nonneg (spec_path (hd_target h)));
  pose proof (o_body_eq h);
  unfold o_headers, o_version_end, o_version, o_target_end, o_target in *.

Lemma hterm_body h i : hterm (o_headers h) (hd_headers h) i -> o_headers h <= i < o_body h.
Proof. intros H. apply hterm_range in H. rewrite o_body_eq. lia. Qed.
Lemma term_body h i : term h i -> i < o_body h.
Proof.
  intros [H|H]; [apply hterm_body in H; lia|]. offs h.
  destruct H as [->|[->|[->|[(_ & ->)| ->]]]]; lia.
Qed.

Lemma frag_text_len h : hd_fragment h <> None -> blen (fragment_text h) = 1 + blen (spec_fragment h).
Proof. unfold fragment_text, spec_fragment. destruct (hd_fragment h); [|congruence]. intros _. now rewrite blen_app. Qed.

Lemma field_agree h s b : head_parsed h s -> agree (term h) b (field_buf b (tp s)).
Proof.
  intros HP. destruct HP as [_ _ (R1 & R2) (U1 & U2) (F1 & F2) (P1 & P2) (Q1 & Q2) (V1 & V2) _ _].
  pose proof (frag_text_len h) as FL.
  unfold field_buf. cbv zeta.
  assert (L : forall x : bytes, blen x <> 0 -> x <> []) by (intros x Hx ->; apply Hx; reflexivity).
  eapply agree_trans; [|apply agree_nullterm].
  2:{ rewrite V1, V2. intros _. unfold term. offs h. split; [lia|]. do 5 right. lia. }
  eapply agree_trans; [|apply agree_nullterm].
  2:{ rewrite Q1. intros Hq. apply L in Hq. rewrite (Q2 Hq). unfold term. offs h. split; [pose proof (blen_nonneg (spec_query (hd_target h))); lia|].
      do 2 right. left. destruct (hd_target h) as [| |p [q|]]; cbn [spec_query spec_path target_text] in *; try congruence.
      rewrite !blen_app. change (blen (lit "?")) with 1. lia. }
  eapply agree_trans; [|apply agree_nullterm].
  2:{ rewrite P1. intros Hp. apply L in Hp. rewrite (P2 Hp). unfold term. offs h. split; [lia|]. do 4 right. left. auto. }
  eapply agree_trans; [|apply agree_nullterm].
  2:{ rewrite F1. intros Hf. apply L in Hf. assert (NF : hd_fragment h <> None).
      { intros N. apply Hf. unfold spec_fragment. now rewrite N. }
      rewrite (F2 NF). specialize (FL NF). unfold term. offs h. split; [pose proof (blen_nonneg (spec_fragment h)); lia|]. do 3 right. left. lia. }
  eapply agree_trans; [|apply agree_nullterm].
  2:{ rewrite R1, R2. intros _. unfold term. offs h. split; [lia|]. right. left. lia. }
  destruct (qs_len (tp s) =? 0); [|apply agree_refl]. apply agree_nullterm. rewrite U1, U2. intros _.
  unfold term. offs h. split; [lia|]. do 2 right. left. lia.
Qed.

Lemma store_same b i c : 0 <= i < blen b -> nth_error (store b i c) (Z.to_nat i) = Some c.
Proof. intros H. apply set_nth_same. unfold blen in H. lia. Qed.
Lemma store_other b i j c : 0 <= i -> 0 <= j -> i <> j -> nth_error (store b i c) (Z.to_nat j) = nth_error b (Z.to_nat j).
Proof. intros. apply set_nth_other. lia. Qed.

Lemma slice_snoc b p n : 0 <= p -> 0 <= n -> slice b p (n + 1) =
  slice b p n ++ match nth_error b (Z.to_nat (p + n)) with Some c => [c] | None => [] end.
Proof.
  intros Hp Hn. apply nth_error_ext. intros i.
  assert (L : (length (slice b p n) <= Z.to_nat n)%nat) by (unfold slice; rewrite firstn_length; lia).
  rewrite nth_slice. rewrite Z2Nat.inj_add by lia.
  destruct (Nat.ltb_spec i (length (slice b p n))).
  - rewrite nth_error_app1 by lia. rewrite nth_slice.
    destruct (Nat.ltb_spec i (Z.to_nat n)); [|lia]. destruct (Nat.ltb_spec i (Z.to_nat n + Z.to_nat 1)); [reflexivity|lia].
  - rewrite nth_error_app2 by lia. rewrite Z2Nat.inj_add by lia.
    unfold slice in *. rewrite firstn_length, skipn_length in *.
    destruct (Nat.ltb_spec i (Z.to_nat n + Z.to_nat 1)) as [Hi|Hi].
    + destruct (nth_error b (Z.to_nat p + Z.to_nat n)) eqn:E.
      * assert (Z.to_nat p + Z.to_nat n < length b)%nat by (apply nth_error_Some; congruence).
        replace i with (Z.to_nat n) by lia. rewrite E. replace (Z.to_nat n - _)%nat with 0%nat by lia. reflexivity.
      * apply nth_error_None in E. rewrite (proj2 (nth_error_None b (Z.to_nat p + i))) by lia.
        now destruct (i - _)%nat.
    + destruct (nth_error b (Z.to_nat p + Z.to_nat n)) eqn:E.
      * symmetry. apply nth_error_None. cbn [length].
        assert (Z.to_nat p + Z.to_nat n < length b)%nat by (apply nth_error_Some; congruence). lia.
      * now destruct (i - _)%nat.
Qed.

Theorem view_request_ok h s hb content more : wf_head h -> head_parsed h s ->
  agree (hterm (o_headers h) (hd_headers h)) (head_text h) hb ->
  let before := setup_buf (hb ++ content ++ more) (refs s) in
  let b := field_buf before (tp s) in
  view_request before b s (blen content) = delivered (mkMsg h content) /\
  exists hb', b = hb' ++ content ++ more /\ blen hb' = o_body h.
Proof.
  intros W HP A before b.
  set (full := head_text h ++ content ++ more).
  assert (O0 : 0 <= o_headers h) by (offs h; lia).
  assert (A1 : agree (hterm (o_headers h) (hd_headers h)) full before).
  { unfold before, full. rewrite (hp_refs _ _ HP). eapply agree_trans; [apply agree_app, A|]. now apply setup_agree. }
  assert (A2 : agree (term h) before b) by (apply field_agree; auto).
  assert (A3 : agree (term h) full b).
  { eapply agree_trans; [|exact A2]. eapply agree_mono; [|exact A1]. intros i Hi. now left. }
  assert (TXT : full = hd_method h ++ lit " " ++ target_text (hd_target h) ++ fragment_text h ++ lit " "
     ++ version_text h ++ CRLF ++ concat (map hline_text (hd_headers h)) ++ CRLF ++ content ++ more).
  { unfold full, head_text. rewrite <- !app_assoc. reflexivity. }
  assert (HB : forall i, term h i -> o_headers h <= i \/ i = o_target h - 1 \/ i = o_target_end h \/ i = o_version h - 1
   \/ (spec_path (hd_target h) <> [] /\ i = o_target h + blen (spec_path (hd_target h))) \/ i = o_version_end h).
  { intros i [Hi|Hi]; auto. apply hterm_body in Hi. left; lia. }
  split.
  2:{ destruct (agree_app_inv _ _ _ A3 (head_text h) (content ++ more) eq_refl) as (hb' & E & E').
      - intros i Hi. apply term_body in Hi. exact Hi.
      - exists hb'. split; auto. unfold o_body, blen. destruct E' as (-> & _). reflexivity. }
  destruct HP as [_ HPb (R1 & R2) (U1 & U2) (F1 & F2) (P1 & P2) (Q1 & Q2) (V1 & V2) HPr _].
  pose proof (frag_text_len h) as FL.
  assert (NE : forall x : bytes, x <> [] -> blen x <> 0) by (intros [|x0 x1]; [congruence|rewrite blen_cons; pose proof (blen_nonneg x1); lia]).
  unfold view_request, delivered. cbv zeta. cbn [m_head m_content]. f_equal.
  - (* method *)
    rewrite R1, R2. rewrite (agree_slice _ _ _ _ _ A3); [|lia|].
    + eapply (slice_at _ [] _); [rewrite TXT; reflexivity|reflexivity|reflexivity].
    + intros i Hi Ti. apply HB in Ti. offs h. destruct Ti as [|[|[|[|[(_ & ?)|]]]]]; lia.
  - (* uri *)
    assert (SU : slice full (uri_start (tp s)) (uri_len (tp s)) = target_text (hd_target h)).
    { rewrite U1, U2. eapply (slice_at _ (hd_method h ++ lit " ")); [rewrite TXT, <- !app_assoc; reflexivity| |reflexivity].
      rewrite blen_app. reflexivity. }
    destruct (Z.eqb_spec (qs_len (tp s)) 0) as [Q0|Q0].
    + assert (Qn : spec_query (hd_target h) = []).
      { destruct (spec_query (hd_target h)) eqn:E; auto. exfalso. rewrite Q1 in Q0. eapply NE; [|exact Q0]. congruence. }
      assert (NoQ : shown_uri (hd_target h) = target_text (hd_target h) ->
        (spec_path (hd_target h) <> [] -> blen (spec_path (hd_target h)) = blen (target_text (hd_target h))) ->
        slice b (uri_start (tp s)) (uri_len (tp s)) = shown_uri (hd_target h)).
      { intros -> Hpl. rewrite (agree_slice _ _ _ _ _ A3); [exact SU|rewrite U1; offs h; lia|].
        rewrite U1, U2. intros i Hi Ti. apply HB in Ti. offs h. destruct Ti as [|[|[|[|[(Hne & ?)|]]]]]; try lia.
        specialize (Hpl Hne). lia. }
      destruct (hd_target h) as [|sc rs|p [q|]] eqn:TG.
      * apply NoQ; [reflexivity|]. cbn. congruence.
      * apply NoQ; [reflexivity|]. cbn. congruence.
      * cbn [spec_query] in Qn. subst q. cbn [shown_uri]. clear NoQ.
        cbn [spec_path target_text] in *.
        assert (TL : blen (lit "/" ++ p ++ lit "?" ++ []) = blen (lit "/" ++ p) + 1).
        { rewrite !blen_app. change (blen (lit "?")) with 1. rewrite blen_nil. lia. }
        rewrite U1, U2, TL, slice_snoc; [|offs h; lia|apply blen_nonneg].
        change (lit "/" ++ p ++ [NUL]) with ((lit "/" ++ p) ++ [NUL]). f_equal.
        -- rewrite (agree_slice _ _ _ _ _ A3); [|offs h; lia|].
           ++ eapply (slice_at _ (hd_method h ++ lit " ")); [rewrite TXT, <- !app_assoc; cbn [app lit list_ascii_of_string]; reflexivity| |reflexivity].
              rewrite blen_app. reflexivity.
           ++ intros i Hi Ti. apply HB in Ti. rewrite ?TG in *. cbn [spec_path target_text] in *.
              unfold o_headers, o_version_end, o_version, o_target_end, o_target in *. rewrite ?TG in *. cbn [target_text] in *.
              pose proof (blen_nonneg (hd_method h)). pose proof (blen_nonneg (version_text h)). pose proof (blen_nonneg (fragment_text h)).
              destruct Ti as [|[|[|[|[(_ & ?)|]]]]]; lia.
        -- (* the terminator of the path *)
           set (i := o_target h + blen (lit "/" ++ p)).
           assert (Ni : nth_error b (Z.to_nat i) = Some NUL); [|now rewrite Ni].
           assert (PN : blen (lit "/" ++ p) <> 0) by (rewrite blen_app; pose proof (blen_nonneg p); change (blen (lit "/")) with 1; lia).
           assert (NNil : lit "/" ++ p <> []) by discriminate. specialize (P2 NNil).
           unfold b, field_buf. cbv zeta. rewrite Q0. rewrite Z.eqb_refl.
           unfold nullterm at 1. rewrite V1, V2.
           assert (V0 : blen (version_text h) <> 0). { unfold version_text. rewrite blen_app. change (blen (lit "HTTP/")) with 5. pose proof (blen_nonneg (hd_major h ++ lit "." ++ hd_minor h)). lia. }
           destruct (Z.eqb_spec (blen (version_text h)) 0); [congruence|].
           assert (Hi : i < o_target_end h /\ 0 <= i /\ i < o_version h).
           { unfold i, o_version, o_target_end, o_target. rewrite TG. cbn [target_text]. rewrite TL.
             pose proof (blen_nonneg (hd_method h)). pose proof (blen_nonneg (fragment_text h)). pose proof (blen_nonneg (lit "/" ++ p)). lia. }
           rewrite store_other; try (pose proof (blen_nonneg (version_text h)); lia).
           unfold nullterm at 1. cbn [Z.eqb]. unfold nullterm at 1. rewrite P1, P2.
           destruct (Z.eqb_spec (blen (lit "/" ++ p)) 0); [congruence|].
           apply store_same. split; [unfold i; lia|].
           assert (LB : blen before = blen full) by (unfold blen; destruct A1 as (-> & _); reflexivity).
           assert (LN : forall x s n, blen (nullterm x s n) = blen x).
           { intros. unfold nullterm. destruct (_ =? 0); auto. apply store_blen. }
           rewrite !LN, LB. unfold full. rewrite blen_app. fold (o_body h). pose proof (blen_nonneg (content ++ more)).
           assert (o_version h <= o_body h). { rewrite o_body_eq. unfold o_headers, o_version_end. pose proof (blen_nonneg (version_text h)). pose proof (blen_nonneg (concat (map hline_text (hd_headers h)))). lia. }
           unfold i in Hi. lia.
      * apply NoQ; [reflexivity|]. reflexivity.
    + rewrite (agree_slice _ _ _ _ _ A1); [|rewrite U1; offs h; lia|].
      * rewrite SU. destruct (hd_target h) as [|sc rs|p [[|c q]|]] eqn:TG; auto. cbn in Q1. contradiction.
      * rewrite U1, U2. intros i Hi Ti. apply hterm_body in Ti. offs h. lia.
  - (* path *)
    rewrite P1. destruct (spec_path (hd_target h)) as [|x y] eqn:EP; [reflexivity|]. rewrite <- EP in *.
    rewrite P2 by congruence. rewrite (agree_slice _ _ _ _ _ A3); [|offs h; lia|].
    + assert (exists tl, target_text (hd_target h) = spec_path (hd_target h) ++ tl) as (tl & TE).
      { destruct (hd_target h) as [|sc rs|p [q|]]; cbn in EP; try discriminate.
        - exists (lit "?" ++ q). cbn [target_text spec_path]. now rewrite <- app_assoc.
        - exists []. cbn [target_text spec_path]. now rewrite app_nil_r. }
      eapply (slice_at _ (hd_method h ++ lit " ")); [rewrite TXT, TE, <- !app_assoc; reflexivity| |reflexivity].
      rewrite blen_app. reflexivity.
    + intros i Hi Ti. apply HB in Ti. offs h. destruct Ti as [|[|[|[|[(_ & ?)|]]]]]; lia.
  - (* query *)
    rewrite Q1. destruct (spec_query (hd_target h)) as [|x y] eqn:EQ; [reflexivity|]. rewrite <- EQ in *.
    rewrite Q2 by congruence.
    assert (TE : target_text (hd_target h) = spec_path (hd_target h) ++ lit "?" ++ spec_query (hd_target h)).
    { destruct (hd_target h) as [|sc rs|p [q|]]; cbn in EQ; try discriminate. cbn [target_text spec_path spec_query]. now rewrite <- app_assoc. }
    assert (TL : blen (target_text (hd_target h)) = blen (spec_path (hd_target h)) + 1 + blen (spec_query (hd_target h))).
    { rewrite TE, !blen_app. change (blen (lit "?")) with 1. lia. }
    pose proof (blen_nonneg (spec_query (hd_target h))).
    rewrite (agree_slice _ _ _ _ _ A3); [|offs h; lia|].
    + eapply (slice_at _ (hd_method h ++ lit " " ++ spec_path (hd_target h) ++ lit "?")); [rewrite TXT, TE, <- !app_assoc; reflexivity| |reflexivity].
      rewrite !blen_app. unfold o_target. change (blen (lit " ")) with 1. change (blen (lit "?")) with 1. lia.
    + intros i Hi Ti. apply HB in Ti. offs h. destruct Ti as [|[|[|[|[(_ & ?)|]]]]]; lia.
  - (* fragment *)
    rewrite F1. destruct (spec_fragment h) as [|x y] eqn:EF; [reflexivity|]. rewrite <- EF in *.
    assert (NF : hd_fragment h <> None) by (unfold spec_fragment in EF; destruct (hd_fragment h); congruence).
    rewrite F2 by auto. specialize (FL NF). pose proof (blen_nonneg (spec_fragment h)).
    rewrite (agree_slice _ _ _ _ _ A3); [|offs h; lia|].
    + eapply (slice_at _ (hd_method h ++ lit " " ++ target_text (hd_target h) ++ lit "#")).
      * rewrite TXT. unfold fragment_text, spec_fragment. destruct (hd_fragment h); [|congruence]. rewrite <- !app_assoc. reflexivity.
      * rewrite !blen_app. unfold o_target_end, o_target. change (blen (lit " ")) with 1. change (blen (lit "#")) with 1. lia.
      * reflexivity.
    + intros i Hi Ti. apply HB in Ti. offs h. destruct Ti as [|[|[|[|[(_ & ?)|]]]]]; lia.
  - (* version *)
    rewrite V1, V2. rewrite (agree_slice _ _ _ _ _ A3); [|offs h; lia|].
    + eapply (slice_at _ (hd_method h ++ lit " " ++ target_text (hd_target h) ++ fragment_text h ++ lit " ")); [rewrite TXT, <- !app_assoc; reflexivity| |reflexivity].
      rewrite !blen_app. unfold o_version, o_target_end, o_target. change (blen (lit " ")) with 1. lia.
    + intros i Hi Ti. apply HB in Ti. offs h. destruct Ti as [|[|[|[|[(_ & ?)|]]]]]; lia.
  - (* headers *)
    rewrite HPr. unfold spec_headers.
    apply (view_headers_ok (term h) _ _ (hd_method h ++ lit " " ++ target_text (hd_target h) ++ fragment_text h ++ lit " "
     ++ version_text h ++ CRLF) (CRLF ++ content ++ more)).
    + rewrite !blen_app. change (blen (lit " ")) with 1. change (blen CRLF) with 2. offs h. lia.
    + rewrite <- !app_assoc. rewrite TXT in A3. exact A3.
    + intros i [Ti|Ti]; [auto|]. left. offs h. destruct Ti as [|[|[|[(_ & ?)|]]]]; lia.
  - (* content *)
    rewrite HPb. rewrite (agree_slice _ _ _ _ _ A3).
    + eapply (slice_at _ (head_text h)); reflexivity.
    + apply blen_nonneg.
    + intros i Hi Ti. apply term_body in Ti. lia.
Qed.
