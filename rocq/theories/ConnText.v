(** Integers in header values and headers found by name: model functions against ConnSpec.v. *)
From Verif Require Import Bytes ByteHelpers Thin Helpers ReqGrammar TextSpec ThinFields CIProofs HelpersProofs Conn ConnSpec.
Open Scope Z_scope.

(** ** toInt, toLongLong *)
Lemma is_space_blank c : is_space c = blank c.
Proof. revert c. assert (H : forall c, Bool.eqb (is_space c) (blank c) = true) by (apply forall_bytes; reflexivity).
  intros c. apply eqb_prop, H. Qed.
Lemma digit10 c d : digit_val c = Some d -> d < 10 -> is_digit c = true /\ d = byte_val c - 48.
Proof.
  unfold digit_val. destruct (is_digit c); [intros [= <-]; auto|].
  unfold in_range. destruct (Z.leb_spec 97 (byte_val c)); cbn [andb].
  - destruct (Z.leb_spec (byte_val c) 102); [intros [= <-]; lia|].
    destruct (Z.leb_spec 65 (byte_val c)); cbn [andb]; [|discriminate].
    destruct (Z.leb_spec (byte_val c) 70); [lia|discriminate].
  - destruct (Z.leb_spec 65 (byte_val c)); cbn [andb]; [|discriminate].
    destruct (Z.leb_spec (byte_val c) 70); [|discriminate]. intros [= <-]. lia.
Qed.
Lemma dec_value_app a : forall acc b, dec_value acc (a ++ b) =
  match dec_value acc a with Some v => dec_value v b | None => None end.
Proof. induction a as [|c a IH]; intros acc b; cbn [app dec_value]; auto. destruct (is_digit c); auto. Qed.
Lemma Digits_dec ds n : Digits 10 ds n -> dec_value 0 ds = Some n.
Proof.
  induction 1 as [c d Hd Hl|s n c d H IH Hd Hl].
  - apply digit10 in Hd as (Hd & ->); auto. cbn [dec_value]. rewrite Hd. f_equal; lia.
  - apply digit10 in Hd as (Hd & ->); auto. rewrite dec_value_app, IH. cbn [dec_value]. now rewrite Hd.
Qed.
Lemma dec_Digits : forall ds n, ds <> [] -> dec_value 0 ds = Some n -> Digits 10 ds n.
Proof.
  intros ds. induction ds as [|c ds IH] using rev_ind; [congruence|]. intros n _ H.
  rewrite dec_value_app in H. destruct (dec_value 0 ds) as [v|] eqn:E; [|discriminate]. cbn [dec_value] in H.
  destruct (is_digit c) eqn:Dc; [|discriminate]. injection H as <-.
  assert (DV : digit_val c = Some (byte_val c - 48)) by (unfold digit_val; now rewrite Dc).
  assert (L : byte_val c - 48 < 10).
  { unfold is_digit, in_range in Dc. apply andb_true_iff in Dc as (D1 & D2). apply Z.leb_le in D2. lia. }
  destruct ds as [|x ds].
  - cbn in E. injection E as <-. change (10 * 0) with 0. rewrite Z.add_0_l. cbn [app]. now constructor.
  - match goal with |- Digits _ _ ?m => change m with (10 * v + (byte_val c - 48)) end.
    apply D_more; auto. apply IH; [discriminate|auto].
Qed.
Lemma Digits_head ds n : Digits 10 ds n -> exists c t, ds = c :: t /\ is_digit c = true.
Proof.
  induction 1 as [c d Hd Hl|s n c d H IH Hd Hl].
  - exists c, []. apply digit10 in Hd; tauto.
  - destruct IH as (x & t & -> & D). exists x, (t ++ [c]). auto.
Qed.
Lemma Digits_all ds n : Digits 10 ds n -> forallb is_digit ds = true.
Proof.
  induction 1 as [c d Hd Hl|s n c d H IH Hd Hl].
  - cbn. apply digit10 in Hd; auto. destruct Hd as (-> & _); auto.
  - rewrite forallb_app, IH. cbn. apply digit10 in Hd; auto. destruct Hd as (-> & _); auto.
Qed.

Lemma until_nul_app a t : ~ In NUL a -> (t = [] \/ exists u, t = NUL :: u) -> until_nul (a ++ t) = a.
Proof.
  induction a as [|c a IH]; intros N T; cbn [app until_nul].
  - destruct T as [->|(u & ->)]; reflexivity.
  - destruct (Ascii.eqb_spec c NUL); [exfalso; apply N; left; auto|]. rewrite IH; auto. intros H; apply N; now right.
Qed.
Lemma until_nul_split b : ~ In NUL (until_nul b) /\ exists t, b = until_nul b ++ t /\ (t = [] \/ exists u, t = NUL :: u).
Proof.
  induction b as [|c b (N & t & E & T)]; cbn [until_nul]; [split; [auto|]; exists []; auto|].
  destruct (Ascii.eqb_spec c NUL) as [->|H].
  - split; [auto|]. exists (NUL :: b). split; eauto.
  - split; [intros [|]; auto|]. exists t. split; auto. cbn [app]. now rewrite <- E.
Qed.
Lemma skip_space_split b : exists sp, forallb blank sp = true /\ b = sp ++ skip_space b /\
  (forall c t, skip_space b = c :: t -> blank c = false).
Proof.
  induction b as [|c b (sp & H1 & H2 & H3)]; cbn [skip_space]; [exists []; repeat split; auto; discriminate|].
  rewrite is_space_blank. destruct (blank c) eqn:E.
  - exists (c :: sp). cbn [forallb app]. rewrite E, H1. repeat split; auto. now rewrite <- H2.
  - exists []. repeat split; auto. intros x t [= <- <-]. auto.
Qed.
Lemma skip_space_app sp t : forallb blank sp = true -> skip_space (sp ++ t) = skip_space t.
Proof.
  induction sp as [|c sp IH]; cbn [app skip_space forallb]; auto.
  intros H. apply andb_true_iff in H as (H1 & H2). rewrite is_space_blank, H1. auto.
Qed.

Lemma sign_not_digit c : is_digit c = true -> blank c = false /\ Ascii.eqb c "-" = false /\ Ascii.eqb c "+" = false /\ c <> NUL.
Proof.
  intros H. assert (Q : forall c, (if is_digit c then negb (blank c) && negb (Ascii.eqb c "-") && negb (Ascii.eqb c "+") && negb (Ascii.eqb c NUL) else true) = true) by (apply forall_bytes; reflexivity).
  specialize (Q c). rewrite H in Q. 
  destruct (blank c); [discriminate|]. destruct (Ascii.eqb c "-"); [discriminate|]. destruct (Ascii.eqb c "+"); [discriminate|].
  destruct (Ascii.eqb_spec c NUL); [discriminate|]. auto.
Qed.
Lemma blank_not_nul sp : forallb blank sp = true -> ~ In NUL sp.
Proof. intros H I. rewrite forallb_forall in H. apply H in I. discriminate. Qed.

Theorem toLongLong_iff b n : toLongLong b = Some n <-> IntText LLONG_MIN LLONG_MAX b n.
Proof.
  split.
  - unfold toLongLong, strtoll_all. destruct (until_nul_split b) as (N & tl & E & T).
    destruct (skip_space_split (until_nul b)) as (sp & H1 & H2 & H3).
    remember (skip_space (until_nul b)) as s eqn:Es. intros H.
    assert (K : forall sg ds neg, s = sg ++ ds ->
      (neg = false /\ (sg = [] \/ sg = ["+"%char]) \/ neg = true /\ sg = ["-"%char]) ->
      match ds with
      | [] => None
      | _ :: _ => match dec_value 0 ds with
         | Some v => let v := if neg : bool then - v else v in
                     if (LLONG_MIN <=? v) && (v <=? LLONG_MAX) then Some v else None
         | None => None
         end end = Some n -> IntText LLONG_MIN LLONG_MAX b n).
    { intros sg ds neg Hs Hsg HH. destruct ds as [|c ds]; [discriminate|].
      destruct (dec_value 0 (c :: ds)) as [v|] eqn:DV; [|discriminate].
      cbv zeta in HH. destruct ((LLONG_MIN <=? (if neg then - v else v)) && ((if neg then - v else v) <=? LLONG_MAX)) eqn:B; [|discriminate].
      injection HH as <-. apply andb_true_iff in B as (B1 & B2). apply Z.leb_le in B1, B2.
      rewrite E, H2, Hs. rewrite <- !app_assoc. apply (IT _ _ sp sg (c :: ds) v); auto.
      - apply dec_Digits; auto. discriminate.
      - destruct Hsg as [(-> & [->| ->])|(-> & ->)]; auto. }
    destruct s as [|c s]; [discriminate|].
    destruct (Ascii.eqb_spec c "-") as [->|]; [apply (K ["-"%char] s true); auto|].
    destruct (Ascii.eqb_spec c "+") as [->|]; [apply (K ["+"%char] s false); auto|].
    apply (K [] (c :: s) false); auto.
  - intros H. destruct H as [sp sg ds n m tl Hsp Hds Hsg Htl Hm].
    destruct (Digits_head _ _ Hds) as (c & t & -> & Dc). apply sign_not_digit in Dc as (D1 & D2 & D3 & D4).
    assert (NN : ~ In NUL (sp ++ sg ++ c :: t)).
    { rewrite !in_app_iff. intros [I|[I|I]].
      - eapply blank_not_nul; eauto.
      - destruct Hsg as [(-> & _)|[(-> & _)|(-> & _)]]; cbn in I; intuition discriminate.
      - apply Digits_all in Hds. rewrite forallb_forall in Hds. apply Hds in I. discriminate. }
    unfold toLongLong. replace (sp ++ sg ++ (c :: t) ++ tl) with ((sp ++ sg ++ c :: t) ++ tl) by (rewrite <- !app_assoc; reflexivity).
    rewrite until_nul_app by auto. unfold strtoll_all. rewrite skip_space_app by auto.
    pose proof (Digits_dec _ _ Hds) as DV.
    assert (R : (LLONG_MIN <=? m) && (m <=? LLONG_MAX) = true) by (apply andb_true_iff; split; apply Z.leb_le; lia).
    destruct Hsg as [(-> & ->)|[(-> & ->)|(-> & ->)]]; cbn [app].
    + cbn [skip_space]. rewrite is_space_blank, D1, D2, D3, DV. now rewrite R.
    + cbn [skip_space]. change (is_space "+") with false. cbv iota beta. change (Ascii.eqb "+" "-") with false. change (Ascii.eqb "+" "+") with true.
      cbv iota beta. rewrite DV. now rewrite R.
    + cbn [skip_space]. change (is_space "-") with false. cbv iota beta. change (Ascii.eqb "-" "-") with true.
      cbv iota beta. rewrite DV. now rewrite R.
Qed.
Lemma IntText_sub lo hi lo' hi' b n : IntText lo hi b n -> lo' <= n <= hi' -> IntText lo' hi' b n.
Proof. intros H Hn. destruct H as [sp sg ds v m tl H1 H2 H3 H4 H5]. econstructor; eauto. Qed.
Lemma IntText_range lo hi b n : IntText lo hi b n -> lo <= n <= hi.
Proof. now intros []. Qed.
Theorem toInt_iff b n : toInt b = Some n <-> IntText int_lo int_hi b n.
Proof.
  unfold toInt. split.
  - destruct (toLongLong b) as [v|] eqn:E; [|discriminate]. apply toLongLong_iff in E.
    destruct ((INT_MIN <=? v) && (v <=? INT_MAX)) eqn:B; [|discriminate]. intros [= ->].
    apply andb_true_iff in B as (B1 & B2). apply Z.leb_le in B1, B2. eapply IntText_sub; eauto.
  - intros H. pose proof (IntText_range _ _ _ _ H) as R. eapply (IntText_sub _ _ LLONG_MIN LLONG_MAX) in H.
    + apply toLongLong_iff in H. rewrite H.
      assert (B : (INT_MIN <=? n) && (n <=? INT_MAX) = true) by (apply andb_true_iff; split; apply Z.leb_le; unfold int_lo, int_hi, INT_MIN, INT_MAX in *; lia).
      now rewrite B.
    + unfold int_lo, int_hi, LLONG_MIN, LLONG_MAX in *. lia.
Qed.
Lemma toInt_none b : toInt b = None <-> forall n, ~ IntText int_lo int_hi b n.
Proof.
  split.
  - intros E n H. apply toInt_iff in H. congruence.
  - intros H. destruct (toInt b) eqn:E; auto. apply toInt_iff in E. exfalso. eapply H; eauto.
Qed.
Lemma toLongLong_none b : toLongLong b = None <-> forall n, ~ IntText LLONG_MIN LLONG_MAX b n.
Proof.
  split.
  - intros E n H. apply toLongLong_iff in H. congruence.
  - intros H. destruct (toLongLong b) eqn:E; auto. apply toLongLong_iff in E. exfalso. eapply H; eauto.
Qed.
Lemma IntText_fun lo hi b n m : IntText lo hi b n -> IntText lo hi b m -> LLONG_MIN <= lo -> hi <= LLONG_MAX -> n = m.
Proof.
  intros H1 H2 A B. pose proof (IntText_range _ _ _ _ H1). pose proof (IntText_range _ _ _ _ H2).
  apply (IntText_sub _ _ LLONG_MIN LLONG_MAX) in H1; [|lia]. apply (IntText_sub _ _ LLONG_MIN LLONG_MAX) in H2; [|lia].
  apply toLongLong_iff in H1, H2. congruence.
Qed.

(** ** Headers by name *)
Lemma eqCI_named (h : header) name : lower (lit name) = lit name -> asciiEqualsCI_lower (fst h) (lit name) = named name h.
Proof.
  intros L. unfold named. destruct (asciiEqualsCI_lower (fst h) (lit name)) eqn:E.
  - apply asciiEqualsCI_lower_iff in E; auto. symmetry. now apply beqb_true.
  - symmetry. apply beqb_false. intros H. apply (asciiEqualsCI_lower_iff _ _ L) in H. congruence.
Qed.
Lemma eqCI_lit b word : lower (lit word) = lit word -> asciiEqualsCI_lower b (lit word) = beqb (lower b) (lit word).
Proof. intros L. exact (eqCI_named (b, []) word L). Qed.

Lemma first_named_ok hs name : lower (lit name) = lit name ->
  find_field asciiEqualsCI_lower hs (lit name) = first_named name hs.
Proof.
  intros L. unfold first_named. induction hs as [|[f v] t IH]; cbn [find_field filter]; auto.
  pose proof (eqCI_named (f, v) name L) as E. cbn [fst] in E. rewrite E. destruct (named name (f, v)); auto.
Qed.
Lemma field_says hs name word : lower (lit name) = lit name -> lower (lit word) = lit word -> word <> EmptyString ->
  asciiEqualsCI_lower (getFieldValue_tok hs (lit name)) (lit word) = says (first_named name hs) word.
Proof.
  intros L1 L2 NE. unfold getFieldValue_tok. rewrite first_named_ok by auto.
  destruct (first_named name hs) as [v|]; cbn [value_or_empty says].
  - now apply eqCI_lit.
  - rewrite eqCI_lit by auto. apply beqb_false. cbn. destruct word; [congruence|]. discriminate.
Qed.

Lemma last_named_snoc name hs h : last_named name (hs ++ [h]) = if named name h then Some h else last_named name hs.
Proof.
  unfold last_named. rewrite filter_app. cbn [filter]. destruct (named name h).
  - now rewrite rev_app_distr.
  - now rewrite app_nil_r.
Qed.

Lemma asciiEqualsCI_named (h : header) name : lower (lit name) = lit name -> asciiEqualsCI (fst h) (lit name) = named name h.
Proof. intros L. rewrite <- asciiEqualsCI_lower_agrees by auto. now apply eqCI_named. Qed.

(** the index kept by the parser callback is that of the last Content-Length header *)
Lemma last_cl_ok : forall hs n d, 0 <= n -> 
  let r := last_cl n d hs in
  match last_named "content-length" (map (fun l => (hname l, hvalue l)) hs) with
  | Some h => n <= r < n + Z.of_nat (length hs) /\
      nth (Z.to_nat (r - n)) (map (fun l => (hname l, hvalue l)) hs) ([], []) = h
  | None => r = d
  end.
Proof.
  induction hs as [|h t IH]; intros n d Hn; [reflexivity|]. cbn [last_cl map].
  assert (L : last_named "content-length" ((hname h, hvalue h) :: map (fun l => (hname l, hvalue l)) t) =
    match last_named "content-length" (map (fun l => (hname l, hvalue l)) t) with
    | Some x => Some x
    | None => if named "content-length" (hname h, hvalue h) then Some (hname h, hvalue h) else None end).
  { unfold last_named. cbn [filter]. destruct (named "content-length" (hname h, hvalue h)).
    - cbn [rev]. destruct (rev (filter (named "content-length") (map (fun l => (hname l, hvalue l)) t))) eqn:E; reflexivity.
    - destruct (rev _); reflexivity. }
  rewrite L. pose proof (asciiEqualsCI_named (hname h, hvalue h) "content-length" eq_refl) as E. cbn [fst] in E. rewrite E.
  specialize (IH (n + 1) (if named "content-length" (hname h, hvalue h) then n else d) ltac:(lia)). cbv zeta in IH.
  destruct (last_named "content-length" (map (fun l => (hname l, hvalue l)) t)) as [x|].
  - destruct IH as (R & Nx). cbn [length]. split; [lia|].
    set (r := last_cl _ _ _) in *. replace (Z.to_nat (r - n)) with (S (Z.to_nat (r - (n + 1)))) by lia. exact Nx.
  - rewrite IH. destruct (named "content-length" (hname h, hvalue h)); auto. cbn [length]. split; [lia|].
    rewrite Z.sub_diag. reflexivity.
Qed.
