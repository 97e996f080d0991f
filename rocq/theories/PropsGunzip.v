(** PROPERTY C69: decompression of content. *)
From Verif Require Import Bytes ByteHelpers Helpers Joyent TextSpec RespSpec Client ClientSpec Gunzip PropsClient PropsClient2.
Open Scope Z_scope.

(** ** Specification *)
Definition prefix (a b : bytes) : Prop := exists c, b = a ++ c.
(** The contract of zlib's inflate() for a format of compressed files; [Zipped s x]: s is one compressed file of the content x.
    [At s x z w o]: the stream z has consumed w and put out o, of s and x. *)
Record Contract (zs : Type) (zinit : zs) (inflate : zs -> bytes -> Z -> zs * nat * bytes * Z) (Zipped : bytes -> bytes -> Prop)
    (At : bytes -> bytes -> zs -> bytes -> bytes -> Prop) : Prop := {
  ct_init : forall s x, Zipped s x -> At s x zinit [] [];
  ct_prefix : forall s x z w o, At s x z w o -> prefix w s /\ prefix o x;
  (* the checksum comes last: when it is consumed everything was put out *)
  ct_end : forall s x z o, At s x z s o -> o = x;
  (* a call takes some of the input, and does what it can; it only fails without input (Z_BUF_ERROR) *)
  ct_step : forall s x z w o i room, At s x z w o -> prefix (w ++ i) s \/ prefix s (w ++ i) -> 0 < room ->
    match inflate z i room with
    | (z', n, out, ret) =>
        (i <> [] -> 0 <= ret) /\ (n <= length i)%nat /\ blen out <= room /\
        (0 <= ret -> At s x z' (w ++ firstn n i) (o ++ out) /\ (blen out < room -> n = length i \/ w ++ firstn n i = s))
    end }.

(** ** Proofs *)
Lemma prefix_refl a : prefix a a.
Proof. exists []. now rewrite app_nil_r. Qed.
Lemma prefix_app a b : prefix a (a ++ b).
Proof. now exists b. Qed.
Lemma prefix_len a b : prefix a b -> blen a <= blen b.
Proof. intros [c ->]. unfold blen. rewrite app_length. lia. Qed.
Lemma prefix_of_app w i s : prefix s (w ++ i) -> prefix w s -> exists r, s = w ++ r /\ prefix r i.
Proof. intros [c E] [r ->]. exists r. split; [reflexivity|]. exists c. rewrite <- app_assoc in E. now apply app_inv_head in E. Qed.

Section Decode.
  Variables (zs : Type) (zinit : zs) (inflate : zs -> bytes -> Z -> zs * nat * bytes * Z).
  Notation Infl := (Inflated zs inflate).
  Notation Tr := (Transform zs inflate).
  Notation Fd := (Feeds zs inflate).
  Lemma inflated_det z i buf z1 r1 : Infl z i buf z1 r1 -> forall z2 r2, Infl z i buf z2 r2 -> z1 = z2 /\ r1 = r2.
  Proof.
    induction 1 as [z i buf z' n out ret E R|z i buf z' n out ret z'' res E R S B H IH|z i buf z' n out ret E R S]; intros z2 r2 G;
      inversion G as [? ? ? ? ? ? ? E2 R2|? ? ? ? ? ? ? ? ? E2 R2 S2 B2 H2|? ? ? ? ? ? ? E2 R2 S2]; subst; rewrite E in E2; injection E2 as <- <- <- <-; try lia; auto; try (now apply IH); try tauto.
  Qed.
  Lemma transform_det g b g1 o1 g2 o2 : Tr g b g1 o1 -> Tr g b g2 o2 -> g1 = g2 /\ o1 = o2.
  Proof.
    intros A B. inversion A; subst; inversion B; subst; auto;
      match goal with X : Infl _ _ _ _ _, Y : Infl _ _ _ _ _ |- _ => destruct (inflated_det _ _ _ _ _ X _ _ Y) as [-> E] end; try discriminate; try injection E as ->; auto.
  Qed.
  Lemma feeds_det g bs g1 o1 : Fd g bs g1 o1 -> forall g2 o2, Fd g bs g2 o2 -> g1 = g2 /\ o1 = o2.
  Proof.
    induction 1 as [g|g b g' out bs g'' outs T F IH]; intros g2 o2 G; inversion G as [|? ? g3 o3 ? ? o4 T3 F3]; subst; [auto|].
    destruct (transform_det _ _ _ _ _ _ T T3) as [<- <-]. destruct (IH _ _ F3) as [-> ->]. auto.
  Qed.

  Section Valid.
    Variables (Zipped : bytes -> bytes -> Prop) (At : bytes -> bytes -> zs -> bytes -> bytes -> Prop).
    Hypothesis C : Contract zs zinit inflate Zipped At.
    Variables (s x : bytes).

    Lemma loop_ok : forall k z w o i buf, (Z.to_nat (blen x - blen o) < k)%nat -> At s x z w o -> i <> [] -> prefix (w ++ i) s \/ prefix s (w ++ i) ->
      exists z' out c, Infl z i buf z' (Some (buf ++ out)) /\ At s x z' (w ++ c) (o ++ out) /\ prefix c i /\ (c = i \/ w ++ c = s).
    Proof.
      induction k as [|k IH]; intros z w o i buf K A Ni Cm; [lia|].
      pose proof (ct_step _ _ _ _ _ C s x z w o i out_size A Cm ltac:(unfold out_size; lia)) as S.
      destruct (inflate z i out_size) as [[[z' n] out] ret] eqn:E. destruct S as (S1 & S2 & S3 & S4). specialize (S1 Ni). specialize (S4 S1) as [S4 S5].
      destruct (list_eq_dec ascii_dec (skipn n i) []) as [Sk|Sk]; [|destruct (Z.eq_dec (blen out) out_size) as [B|B]].
      - exists z', out, (firstn n i). assert (Fi : firstn n i = i) by (rewrite <- (firstn_skipn n i) at 2; rewrite Sk; now rewrite app_nil_r).
        split; [eapply In_done; eauto|]. split; [exact S4|]. rewrite Fi. split; [apply prefix_refl|now left].
      - assert (Cm' : prefix ((w ++ firstn n i) ++ skipn n i) s \/ prefix s ((w ++ firstn n i) ++ skipn n i)) by (rewrite <- app_assoc, firstn_skipn; exact Cm).
        destruct (IH z' (w ++ firstn n i) (o ++ out) (skipn n i) (buf ++ out)) as (z2 & out2 & c2 & I2 & A2 & P2 & D2); auto.
        { destruct (ct_prefix _ _ _ _ _ C _ _ _ _ _ S4) as [_ Px]. apply prefix_len in Px. unfold blen in *. rewrite app_length in *. unfold out_size in *. lia. }
        exists z2, (out ++ out2), (firstn n i ++ c2). rewrite !app_assoc. split; [eapply In_more; eauto|]. split; [exact A2|].
        split; [destruct P2 as [r Er]; exists r; now rewrite <- app_assoc, <- Er, firstn_skipn|]. destruct D2 as [-> | D2]; [left; apply firstn_skipn|right; exact D2].
      - exists z', out, (firstn n i). split; [eapply In_done; eauto|]. split; [exact S4|]. split; [exists (skipn n i); now rewrite firstn_skipn|].
        assert (B' : blen out < out_size) by lia. destruct (S5 B') as [-> |S6]; [left; apply firstn_all|right; exact S6].
    Qed.
    (* whatever the pieces are: everything is consumed, up to the end of the file *)
    Lemma feeds_ok : forall bs z w o, Forall (fun b => b <> []) bs -> At s x z w o -> prefix (w ++ concat bs) s \/ prefix s (w ++ concat bs) ->
      exists z' outs c, Fd (mkGz zs z false) bs (mkGz zs z' false) outs /\ At s x z' (w ++ c) (o ++ concat outs) /\ prefix c (concat bs) /\ (c = concat bs \/ w ++ c = s).
    Proof.
      induction bs as [|b bs IH]; intros z w o Ne A Cm.
      { exists z, [], []. cbn [concat]. rewrite !app_nil_r. split; [apply Fd_nil|]. split; [exact A|]. split; [apply prefix_refl|now left]. }
      inversion Ne as [|? ? Nb Nbs]; subst. cbn [concat] in *.
      assert (Cb : prefix (w ++ b) s \/ prefix s (w ++ b)).
      { destruct Cm as [[r E]|[r E]]; [left; exists (concat bs ++ r); now rewrite E, <- !app_assoc|].
        rewrite app_assoc in E. destruct (Nat.le_gt_cases (length (w ++ b)) (length s)) as [L|L].
        - left. exists (skipn (length (w ++ b)) s). assert (X : firstn (length (w ++ b)) ((w ++ b) ++ concat bs) = firstn (length (w ++ b)) (s ++ r)) by now rewrite E.
          rewrite firstn_app, Nat.sub_diag, firstn_O, app_nil_r, firstn_all, firstn_app in X. replace (length (w ++ b) - length s)%nat with 0%nat in X by lia. rewrite firstn_O, app_nil_r in X.
          rewrite X at 1. now rewrite firstn_skipn.
        - right. exists (skipn (length s) (w ++ b)). assert (X : firstn (length s) ((w ++ b) ++ concat bs) = firstn (length s) (s ++ r)) by now rewrite E.
          rewrite (firstn_app _ s), Nat.sub_diag, firstn_O, app_nil_r, firstn_all, firstn_app in X. replace (length s - length (w ++ b))%nat with 0%nat in X by lia. rewrite firstn_O, app_nil_r in X.
          rewrite <- X at 1. now rewrite firstn_skipn. }
      destruct (loop_ok _ z w o b [] (Nat.lt_succ_diag_r _) A Nb Cb) as (z1 & out1 & c1 & I1 & A1 & P1 & D1). cbn [app] in I1.
      assert (C1 : prefix ((w ++ c1) ++ concat bs) s \/ prefix s ((w ++ c1) ++ concat bs)).
      { destruct D1 as [-> | D1]; [rewrite <- app_assoc; exact Cm|right; rewrite D1; apply prefix_app]. }
      destruct (IH z1 (w ++ c1) (o ++ out1) Nbs A1 C1) as (z2 & outs & c2 & F2 & A2 & P2 & D2).
      destruct D1 as [-> | D1].
      - exists z2, (out1 :: outs), (b ++ c2). cbn [concat]. rewrite !app_assoc. split; [econstructor; [apply Tr_ok; exact I1|exact F2]|]. split; [exact A2|].
        split; [destruct P2 as [r ->]; exists r; now rewrite app_assoc|]. destruct D2 as [-> | D2]; [now left|now right].
      - (* the end was reached in this piece *)
        assert (X : c2 = []).
        { destruct (ct_prefix _ _ _ _ _ C _ _ _ _ _ A2) as [[r E] _]. rewrite D1 in E. rewrite <- app_assoc in E. apply (f_equal (@length _)) in E. rewrite !app_length in E. destruct c2; [reflexivity|]. cbn [length] in E. lia. }
        subst c2. rewrite app_nil_r in A2, D2. exists z2, (out1 :: outs), c1. cbn [concat]. rewrite app_assoc. split; [econstructor; [apply Tr_ok; exact I1|exact F2]|]. split; [exact A2|].
        split; [destruct P1 as [r ->]; exists (r ++ concat bs); now rewrite app_assoc|]. now right.
    Qed.

    (** ** C69 *)
    (** A compressed file, cut into any pieces and possibly with more behind it: what is returned is its content. *)
    Theorem C69_decodes : Zipped s x -> forall bs more, Forall (fun b => b <> []) bs -> concat bs = s ++ more ->
      exists g outs, Fd (gunz0 zs zinit) bs g outs /\ concat outs = x.
    Proof.
      intros Z bs more Ne E. destruct (feeds_ok bs zinit [] [] Ne (ct_init _ _ _ _ _ C _ _ Z)) as (z' & outs & c & F & A & P & D).
      { right. exists more. exact E. }
      cbn [app] in A, D. exists (mkGz zs z' false), outs. split; [exact F|]. assert (X : c = s).
      { destruct D as [-> |D]; [|exact D]. destruct (ct_prefix _ _ _ _ _ C _ _ _ _ _ A) as [[r Er] _]. rewrite E in Er. rewrite <- app_assoc in Er. rewrite <- (app_nil_r s) in Er at 1. apply app_inv_head in Er.
        symmetry in Er. apply app_eq_nil in Er as [-> _]. now rewrite E, app_nil_r. }
      subst c. exact (ct_end _ _ _ _ _ C _ _ _ _ A).
    Qed.
    (** While the file is not complete: the beginning of its content. *)
    Theorem C69_so_far : Zipped s x -> forall bs rest, Forall (fun b => b <> []) bs -> concat bs ++ rest = s ->
      exists g outs, Fd (gunz0 zs zinit) bs g outs /\ prefix (concat outs) x.
    Proof.
      intros Z bs rest Ne E. destruct (feeds_ok bs zinit [] [] Ne (ct_init _ _ _ _ _ C _ _ Z)) as (z' & outs & c & F & A & P & D).
      { left. exists rest. exact (eq_sym E). }
      exists (mkGz zs z' false), outs. split; [exact F|]. apply (ct_prefix _ _ _ _ _ C _ _ _ _ _ A).
    Qed.
  End Valid.
  (** Once inflate() failed: everything is passed through as it is, beginning with that piece. *)
  Theorem C69_passed_through : forall z b g out, Tr (mkGz zs z true) b g out -> g = mkGz zs z true /\ out = b.
  Proof. intros z b g out H. inversion H; subst; auto. Qed.
  Theorem C69_failing_piece : forall g b g' out, Tr g b g' out -> g_bad zs g' = true -> out = b.
  Proof. intros g b g' out H B. inversion H; subst; auto. discriminate. Qed.
End Decode.

(** the decoder of a client: gunzip is what a transformer that was fed the pieces returns *)
Definition Decoder (zs : Type) (zinit : zs) (inflate : zs -> bytes -> Z -> zs * nat * bytes * Z) (gunzip : list bytes -> bytes -> bytes) : Prop :=
  forall fed g outs b g' out, Feeds zs inflate (gunz0 zs zinit) fed g outs -> Transform zs inflate g b g' out -> gunzip fed b = out.
Section Content.
  Variables (zs : Type) (zinit : zs) (inflate : zs -> bytes -> Z -> zs * nat * bytes * Z).
  Variables (Zipped : bytes -> bytes -> Prop) (At : bytes -> bytes -> zs -> bytes -> bytes -> Prop).
  Hypothesis C : Contract zs zinit inflate Zipped At.
  Variables (gunzip : list bytes -> bytes -> bytes) (parse_url : bytes -> url).
  Hypothesis D : Decoder zs zinit inflate gunzip.
  Notation step := (cstep true gunzip parse_url).
  Notation run := (crun true gunzip parse_url).

  Lemma feeds_app g bs g' outs : Feeds zs inflate g bs g' outs -> forall b g'' out, Transform zs inflate g' b g'' out -> Feeds zs inflate g (bs ++ [b]) g'' (outs ++ [out]).
  Proof. induction 1; intros; cbn [app]; econstructor; eauto; apply Fd_nil. Qed.
  Lemma unzipped_feeds : forall bs g g' outs fed gs, Feeds zs inflate g bs g' outs -> Feeds zs inflate (gunz0 zs zinit) fed g gs -> unzipped gunzip fed bs = outs.
  Proof.
    induction bs as [|b bs IH]; intros g g' outs fed gs F G; inversion F as [|? ? g1 out ? ? os T F1]; subst; [reflexivity|]. cbn [unzipped].
    rewrite (D _ _ _ _ _ _ G T). f_equal. eapply IH; [exact F1|]. eapply feeds_app; eauto.
  Qed.
  (** A gzipped response whose body is a compressed file, delivered in any segments: when finished() is emitted, without an error, the pieces
      of content shown are together the content of the file, and so is content() unless some of it was consumed. *)
  Theorem C69_response c i t a b code hs body x l F content :
    Waits DConnected c -> head_method (cr_method (c_req c)) = false ->
    Interim i -> WholeResponse t a b code hs body -> code <> 100 -> gzipped hs = true -> Zipped body content ->
    receiving_run step (CRun c []) l -> arrived l ++ F = i ++ t ++ x ->
    forall c' stk, run (CRun c []) l = CRun c' stk -> c_pending c' = false ->
    exists obs pieces got, c_log c' = c_log c ++ obs /\
      filter said obs = CHeaders code hs :: map CContent pieces ++ [CFinished NoError code hs got] /\
      concat pieces = content /\ (consumes l = false -> got = content).
  Proof.
    intros Wt NH Hi HW N1 Gz Z Q E c' stk R P.
    destruct (C53_response true gunzip parse_url c i t a b code hs body x l F Wt NH Hi HW N1 Q E) as (c2 & stk2 & obs & R2 & Lo & H).
    rewrite R in R2. injection R2 as <- <-. rewrite Gz in H. cbn [andb] in H. unfold shown in H. destruct H as [(P2 & _)|(_ & xs & used & got & Fo & Cx & Ne & Cu & Us)]; [congruence|].
    assert (X : concat (unzipped gunzip [] xs) = content).
    { destruct (C69_decodes _ _ _ _ _ C body content Z xs [] Ne ltac:(now rewrite app_nil_r)) as (g & outs & Fd & Co).
      rewrite (unzipped_feeds _ _ _ _ [] [] Fd (Fd_nil _ _ _)). exact Co. }
    exists obs, (unzipped gunzip [] xs), got. split; [exact Lo|]. split; [exact Fo|]. split; [exact X|].
    intros Hc. rewrite (Us Hc) in Cu. cbn [app] in Cu. congruence.
  Qed.
End Content.

(** ** A toy zlib that meets the contract: each byte stands for two of them, '$' ends the file; '!' is an error *)
Definition opt (p : option ascii) : bytes := match p with Some b => [b] | None => [] end.
Definition twice (p : bytes) : bytes := concat (map (fun b => [b; b]) p).
Fixpoint toy_go (i : bytes) (room : nat) : option ascii * bool * nat * bytes * bool :=
  match i with
  | [] => (None, false, 0%nat, [], false)
  | ch :: t =>
      if ceq ch "$" then (None, true, 1%nat, [], false)
      else if ceq ch "!" then (None, false, 0%nat, [], true)
      else match room with
           | O => (None, false, 0%nat, [], false)
           | S O => (Some ch, false, 1%nat, [ch], false)
           | S (S r) => let '(p, d, n, out, e) := toy_go t r in (p, d, S n, ch :: ch :: out, e)
           end
  end.
Definition toy_inflate (z : option ascii * bool) (i : bytes) (room : Z) : (option ascii * bool) * nat * bytes * Z :=
  if snd z then (z, 0%nat, [], 1) else
  let '(p, d, n, out, e) :=
    match fst z with
    | Some b => match Z.to_nat room with
                | O => (Some b, false, 0%nat, [], false)
                | S r => let '(p, d, n, out, e) := toy_go i r in (p, d, n, b :: out, e)
                end
    | None => toy_go i (Z.to_nat room)
    end in
  ((p, d), n, out, if e then -3 else if (Nat.eqb n 0 && beqb out []) then -5 else if d then 1 else 0).
Definition plain_text (p : bytes) : Prop := forall ch, In ch p -> ceq ch "$" = false /\ ceq ch "!" = false.
Definition toy_file (s x : bytes) : Prop := exists p, plain_text p /\ s = p ++ lit "$" /\ x = twice p.
Definition toy_at (s x : bytes) (z : option ascii * bool) (w o : bytes) : Prop :=
  exists p q, plain_text (p ++ q) /\ s = (p ++ q) ++ lit "$" /\ x = twice (p ++ q) /\
    (if snd z then w = s /\ o = x else w = p /\ o ++ opt (fst z) = twice p).
Lemma twice_app p q : twice (p ++ q) = twice p ++ twice q.
Proof. unfold twice. now rewrite map_app, concat_app. Qed.
Lemma toy_go_ok : forall i q room, plain_text q -> prefix i (q ++ lit "$") \/ prefix (q ++ lit "$") i ->
  match toy_go i room with
  | (p, d, n, out, e) => e = false /\ (n <= length i)%nat /\ (length out <= room)%nat /\
      (if d then firstn n i = q ++ lit "$" /\ out = twice q /\ p = None
       else (exists q1 q2, q = q1 ++ q2 /\ firstn n i = q1 /\ out ++ opt p = twice q1) /\ ((length out < room)%nat -> n = length i)) /\
      (n = 0%nat -> out = [])
  end.
Proof.
  induction i as [|ch t IH]; intros q room Hq Cm; cbn [toy_go].
  { split; [reflexivity|]. split; [cbn; lia|]. split; [cbn; lia|]. split; [|reflexivity]. split; [|reflexivity]. exists [], q. auto. }
  destruct q as [|c0 q].
  { assert (ch = "$"%char) by (destruct Cm as [[r E]|[r E]]; cbn in E; congruence). subst ch. cbn [ceq]. change (ceq "$" "$") with true. cbn iota.
    split; [reflexivity|]. split; [cbn; lia|]. split; [cbn; lia|]. split; [|discriminate]. split; [reflexivity|]. auto. }
  assert (ch = c0) by (destruct Cm as [[r E]|[r E]]; cbn [app] in E; congruence). subst c0. destruct (Hq ch (or_introl eq_refl)) as [-> ->].
  assert (Hq' : plain_text q) by (intros c X; apply Hq; now right).
  assert (Cm' : prefix t (q ++ lit "$") \/ prefix (q ++ lit "$") t) by (destruct Cm as [[r E]|[r E]]; cbn [app] in E; injection E as E; [left|right]; now exists r).
  destruct room as [|[|room]].
  - split; [reflexivity|]. split; [cbn; lia|]. split; [cbn; lia|]. split; [|reflexivity]. split; [|cbn; lia]. exists [], (ch :: q). auto.
  - split; [reflexivity|]. split; [cbn; lia|]. split; [cbn; lia|]. split; [|discriminate]. split; [|cbn; lia]. exists [ch], q. auto.
  - specialize (IH q room Hq' Cm'). destruct (toy_go t room) as [[[[p d] n] out] e]. destruct IH as (A & B & L & X & Y). split; [exact A|]. split; [cbn; lia|]. split; [cbn; lia|]. split; [|discriminate].
    destruct d.
    + destruct X as (X1 & X2 & X3). cbn [firstn app]. rewrite X1, X2. auto.
    + destruct X as [(q1 & q2 & X1 & X2 & X3) X4]. split; [|cbn [length]; intros; rewrite X4 by lia; reflexivity].
      exists (ch :: q1), q2. cbn [firstn app]. rewrite X1, X2, X3. auto.
Qed.
Lemma toy_contract : Contract _ (None, false) toy_inflate toy_file toy_at.
Proof.
  constructor.
  - intros s x (p & Hp & -> & ->). exists [], p. cbn. auto.
  - intros s x z w o (p & q & Hp & -> & -> & H). destruct (snd z).
    + destruct H as [-> ->]. split; apply prefix_refl.
    + destruct H as [-> H]. split; [exists (q ++ lit "$"); now rewrite <- app_assoc|]. exists (opt (fst z) ++ twice q). now rewrite app_assoc, H, twice_app.
  - intros s x z o (p & q & Hp & Es & -> & H). destruct (snd z); [apply H|]. destruct H as [E _]. rewrite Es, <- app_assoc in E. apply (f_equal (@length _)) in E. rewrite !app_length in E. cbn [length lit] in E. exfalso. cbn in E. lia.
  - intros s x z w o i room A Cm R. unfold toy_inflate. pose proof A as A0. destruct A as (p & q & Hp & Es & Ex & H). destruct z as [pend dn]. cbn [fst snd] in *. destruct dn.
    { destruct H as [-> ->]. split; [lia|]. split; [lia|]. split; [unfold blen; cbn; lia|]. intros _. cbn [firstn]. rewrite !app_nil_r. split; [exact A0|]. now right. }
    destruct H as [-> H].
    assert (Cq : prefix i (q ++ lit "$") \/ prefix (q ++ lit "$") i).
    { rewrite Es, <- app_assoc in Cm. destruct Cm as [[r E]|[r E]]; rewrite <- app_assoc in E; apply app_inv_head in E; [left|right]; now exists r. }
    assert (Hq : plain_text q) by (intros ch X; apply Hp, in_or_app; now right).
    assert (GO : forall room' o', (length o' + Z.to_nat room' = Z.to_nat room)%nat -> 0 <= room' -> o ++ o' = twice p -> (o' <> [] \/ room' = room) ->
      match toy_go i (Z.to_nat room') with
      | (p', d, n, out, e) =>
        (i <> [] -> 0 <= (if e then -3 else if Nat.eqb n 0 && beqb (o' ++ out) [] then -5 else if d then 1 else 0)) /\ (n <= length i)%nat /\ blen (o' ++ out) <= room /\
        (0 <= (if e then -3 else if Nat.eqb n 0 && beqb (o' ++ out) [] then -5 else if d then 1 else 0) ->
          toy_at s x (p', d) (p ++ firstn n i) (o ++ o' ++ out) /\ (blen (o' ++ out) < room -> n = length i \/ p ++ firstn n i = s))
      end).
    { intros room' o' Lr R0 Eo No. pose proof (toy_go_ok i q (Z.to_nat room') Hq Cq) as T. destruct (toy_go i (Z.to_nat room')) as [[[[p' d] n] out] e]. destruct T as (-> & B & L & X & Y).
      split; [|split; [exact B|split; [unfold blen; rewrite app_length; lia|]]].
      - intros Ni. destruct (Nat.eqb_spec n 0) as [N0|N0]; [|cbn [andb]; destruct d; lia]. cbn [andb]. rewrite (Y N0), app_nil_r. destruct o' as [|c o'].
        + exfalso. destruct No as [No|No]; [congruence|]. subst room'. destruct d; [destruct X as (X & _); subst n; cbn in X; destruct q; discriminate|].
          destruct X as [_ X]. rewrite (Y N0) in X. cbn [length] in X. specialize (X ltac:(lia)). destruct i; [congruence|]. cbn in X. lia.
        + cbn [beqb]. destruct d; cbn; lia.
      - intros _. unfold toy_at. cbn [fst snd]. destruct d.
        + destruct X as (X1 & X2 & X3). split; [|intros _; right; rewrite X1, Es; apply app_assoc]. exists p, q. split; [exact Hp|]. split; [exact Es|]. split; [exact Ex|].
          split; [rewrite X1, Es; apply app_assoc|]. rewrite X2, Ex, app_assoc, Eo. symmetry. apply twice_app.
        + destruct X as [(q1 & q2 & X1 & X2 & X3) X4]. split.
          * exists (p ++ q1), q2. rewrite <- (app_assoc p q1 q2), <- X1. split; [exact Hp|]. split; [exact Es|]. split; [exact Ex|]. rewrite X2. split; [reflexivity|].
            rewrite <- !app_assoc, X3, app_assoc, Eo. symmetry. apply twice_app.
          * intros Lt. left. apply X4. unfold blen in Lt. rewrite app_length in Lt. lia. }
    destruct pend as [b|]; cbn [opt] in H.
    + destruct (Z.to_nat room) as [|r] eqn:Er; [lia|]. specialize (GO (Z.of_nat r) [b]). rewrite Nat2Z.id in GO.
      destruct (toy_go i r) as [[[[p' d] n] out] e]. cbn [app] in GO. apply GO; [reflexivity|lia|exact H|left; discriminate].
    + rewrite app_nil_r in H. specialize (GO room []). destruct (toy_go i (Z.to_nat room)) as [[[[p' d] n] out] e]. cbn [app] in GO. apply GO; [reflexivity|lia|rewrite app_nil_r; exact H|now right].
Qed.
(** the decoder made of it *)
Fixpoint toy_loop (k : nat) (z : option ascii * bool) (i buf : bytes) : (option ascii * bool) * option bytes :=
  match k with
  | O => (z, None)
  | S k =>
      let '(z', n, out, ret) := toy_inflate z i out_size in
      if ret <? 0 then (z', None)
      else if negb (beqb (skipn n i) []) && (blen out =? out_size) then toy_loop k z' (skipn n i) (buf ++ out)
      else (z', Some (buf ++ out))
  end.
Definition toy_transform (g : gunz (option ascii * bool)) (b : bytes) : gunz (option ascii * bool) * bytes :=
  if g_bad _ g then (g, b) else
  match toy_loop (S (length b)) (g_z _ g) b [] with
  | (z, Some out) => (mkGz _ z false, out)
  | (z, None) => (mkGz _ z true, b)
  end.
Definition toy_gunzip (fed : list bytes) (b : bytes) : bytes :=
  snd (toy_transform (fold_left (fun g x => fst (toy_transform g x)) fed (gunz0 _ (None, false))) b).
Lemma toy_go_len : forall i room, match toy_go i room with (_, _, n, out, _) => (length out <= 2 * n)%nat end.
Proof.
  induction i as [|ch t IH]; intros room; cbn [toy_go]; [cbn; lia|]. destruct (ceq ch "$"); [cbn; lia|]. destruct (ceq ch "!"); [cbn; lia|].
  destruct room as [|[|r]]; [cbn; lia|cbn; lia|]. specialize (IH r). destruct (toy_go t r) as [[[[p d] n] out] e]. cbn [length]. lia.
Qed.
Lemma toy_len z i z' n out ret : toy_inflate z i out_size = (z', n, out, ret) -> blen out = out_size -> (n <> 0)%nat.
Proof.
  intros E B N0. subst n. apply (f_equal Z.to_nat) in B. unfold blen in B. rewrite Nat2Z.id in B. unfold toy_inflate in E. destruct (snd z).
  - injection E as <- <- <-. cbn [length] in B. assert (0 < Z.to_nat out_size)%nat by (unfold out_size; lia). lia.
  - assert (X : (1 < Z.to_nat out_size)%nat) by (unfold out_size; lia). destruct (fst z) as [b|].
    + destruct (Z.to_nat out_size) as [|r]; [lia|]. pose proof (toy_go_len i r) as L. destruct (toy_go i r) as [[[[p d] m] o] e]. injection E as _ -> <- _. cbn [length] in B. lia.
    + pose proof (toy_go_len i (Z.to_nat out_size)) as L. destruct (toy_go i (Z.to_nat out_size)) as [[[[p d] m] o] e]. injection E as _ -> <- _. lia.
Qed.
Lemma toy_loop_ok z i buf z' res : Inflated _ toy_inflate z i buf z' res -> forall k, (length i < k)%nat -> toy_loop k z i buf = (z', res).
Proof.
  induction 1 as [z i buf z' n out ret E R|z i buf z' n out ret z'' res E R S B H IH|z i buf z' n out ret E R S]; intros [|k] L; try lia; cbn [toy_loop]; rewrite E.
  - destruct (Z.ltb_spec ret 0); [reflexivity|lia].
  - destruct (Z.ltb_spec ret 0); [lia|]. rewrite B, Z.eqb_refl. destruct (skipn n i) as [|c r] eqn:Es; [congruence|]. cbn [beqb negb andb]. apply IH.
    pose proof (toy_len _ _ _ _ _ _ E B) as N. rewrite <- Es, skipn_length. destruct i; [destruct n; discriminate|]. cbn [length] in *. lia.
  - destruct (Z.ltb_spec ret 0); [lia|]. destruct S as [-> |S]; [reflexivity|]. destruct (Z.eqb_spec (blen out) out_size); [congruence|]. now rewrite andb_false_r.
Qed.
Lemma toy_transform_ok g b g' out : Transform _ toy_inflate g b g' out -> toy_transform g b = (g', out).
Proof. intros H. destruct H as [z b|z b z' H|z b z' out H]; unfold toy_transform; cbn [g_bad g_z]; try reflexivity; now rewrite (toy_loop_ok _ _ _ _ _ H) by lia. Qed.
Lemma toy_feeds_ok g bs g' outs : Feeds _ toy_inflate g bs g' outs -> fold_left (fun g x => fst (toy_transform g x)) bs g = g'.
Proof. induction 1 as [|g b g' out bs g'' outs T F IH]; [reflexivity|]. cbn [fold_left]. rewrite (toy_transform_ok _ _ _ _ T). exact IH. Qed.
Lemma toy_decoder : Decoder _ (None, false) toy_inflate toy_gunzip.
Proof. intros fed g outs b g' out F T. unfold toy_gunzip. rewrite (toy_feeds_ok _ _ _ _ F), (toy_transform_ok _ _ _ _ T). reflexivity. Qed.

(** ** The hypotheses are met *)
Definition zip_head (n : string) : bytes := lit "HTTP/1.1 200 OK" ++ CRLF ++ lit "Content-Encoding: gzip" ++ CRLF ++ lit "Content-Length: " ++ lit n ++ CRLF ++ CRLF.
Definition zip_hs (n : string) : list header := [(lit "Content-Encoding", lit "gzip"); (lit "Content-Length", lit n)].
Notation toy_run := (crun true toy_gunzip no_url).
Definition read_piece (b : string) : list caction := [CaArrive (lit b); CaReadyRead; CaReturn; CaReturn; CaReturn].
Theorem C69_case : toy_file (lit "abc$") (lit "aabbcc") /\ gzipped (zip_hs "4") = true /\
  Contract _ (None, false) toy_inflate toy_file toy_at /\ Decoder _ (None, false) toy_inflate toy_gunzip /\
  signals (toy_run cstart (received_at_once (zip_head "4" ++ lit "a") ++ read_piece "bc" ++ read_piece "$")) =
    [CHeaders 200 (zip_hs "4"); CContent (lit "aa"); CContent (lit "bbcc"); CContent []; CFinished NoError 200 (zip_hs "4") (lit "aabbcc")].
Proof.
  split; [exists (lit "abc"); split; [|auto]|split; [reflexivity|split; [apply toy_contract|split; [apply toy_decoder|vm_compute; reflexivity]]]].
  intros ch H. cbn in H. repeat (destruct H as [<-|H]; [auto|]). contradiction.
Qed.
(** ** What does not hold *)
(** of a gzip file of several members (RFC 1952, 2.2) only the first is decompressed, whatever zlib does *)
Theorem C69_members_refuted : forall zs zinit inflate Zipped At, Contract zs zinit inflate Zipped At ->
  forall s1 x1 s2 x2, Zipped s1 x1 -> Zipped s2 x2 -> x2 <> [] ->
  forall bs, Forall (fun b => b <> []) bs -> concat bs = s1 ++ s2 ->
  forall g outs, Feeds zs inflate (gunz0 zs zinit) bs g outs -> concat outs = x1 /\ concat outs <> x1 ++ x2.
Proof.
  intros zs zinit inflate Zipped At C s1 x1 s2 x2 Z1 Z2 N bs Ne E g outs F.
  destruct (C69_decodes _ _ _ _ _ C s1 x1 Z1 bs s2 Ne E) as (g2 & outs2 & F2 & X). destruct (feeds_det _ _ _ _ _ _ F _ _ F2) as [_ ->].
  split; [exact X|]. rewrite X. intros Y. rewrite <- (app_nil_r x1) in Y at 1. apply app_inv_head in Y. congruence.
Qed.
(** a damaged file: content and compressed bytes are mixed, and no error is reported *)
Theorem C69_damaged_refuted :
  signals (toy_run cstart (received_at_once (zip_head "5" ++ lit "ab") ++ read_piece "c!d")) =
    [CHeaders 200 (zip_hs "5"); CContent (lit "aabb"); CContent (lit "c!d"); CFinished NoError 200 (zip_hs "5") (lit "aabbc!d")].
Proof. vm_compute. reflexivity. Qed.
(** an incomplete file: no error is reported *)
Theorem C69_incomplete_refuted :
  signals (toy_run cstart (received_at_once (zip_head "2" ++ lit "ab"))) =
    [CHeaders 200 (zip_hs "2"); CContent (lit "aabb"); CFinished NoError 200 (zip_hs "2") (lit "aabb")].
Proof. vm_compute. reflexivity. Qed.
