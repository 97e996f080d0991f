(** Proofs about ByteHelpers.v and Helpers.v. *)
From Verif Require Import Bytes ByteHelpers Helpers TextSpec.
From Verif Require Export CIProofs.
Open Scope Z_scope.

(** tokens: comparisons with a NUL-free literal are equality *)
Lemma strncmp_eq_iff a t : length a = length t -> ~ In NUL t -> strncmp_eq a t = true <-> a = t.
Proof.
  revert t; induction a as [|x a IH]; intros [|y t]; cbn; try discriminate; [tauto|].
  intros [= L] N. destruct (Ascii.eqb_spec x y) as [->|E].
  - destruct (Ascii.eqb_spec y NUL) as [->|]; [exfalso; auto|]. rewrite (IH t L) by auto.
    split; [intros ->; auto|intros [=]; auto].
  - split; [discriminate|]. intros [=]; contradiction.
Qed.
Lemma eq_token_iff a t : ~ In NUL t -> eq_token a t = true <-> a = t.
Proof.
  intros N. unfold eq_token. rewrite andb_true_iff, Nat.eqb_eq. split.
  - intros [L E]. now apply strncmp_eq_iff in E.
  - intros ->. split; auto. now apply strncmp_eq_iff.
Qed.

(** ** Numbers (C29) *)

Lemma digit_char_val d : 0 <= d < 16 -> digit_val (digit_char d) = Some d /\ lowdigit (digit_char d) = true.
Proof.
  intros H. assert (E : d = Z.of_nat (Z.to_nat d)) by lia. rewrite E.
  assert (L : (Z.to_nat d < 16)%nat) by lia. revert L. generalize (Z.to_nat d). clear. intros n L.
  do 16 (destruct n as [|n]; [vm_compute; auto|]). lia.
Qed.

Lemma digit_char_zero d : 0 <= d < 16 -> digit_char d = "0"%char -> d = 0.
Proof.
  intros H E. destruct (digit_char_val d H) as [V _]. rewrite E in V. vm_compute in V. congruence.
Qed.

Lemma digits_rev_ok base : 2 <= base <= 16 -> forall fuel n, 0 <= n -> n < 2 ^ Z.of_nat fuel -> (0 < fuel)%nat ->
  Digits base (rev (digits_rev fuel base n)) n /\
  forallb lowdigit (digits_rev fuel base n) = true /\
  (forall t, rev (digits_rev fuel base n) = "0"%char :: t -> t = []).
Proof.
  intros Hb. induction fuel as [|f IH]; intros n Hn Hf Hp; [lia|].
  cbn [digits_rev]. pose proof (Z.mod_pos_bound n base ltac:(lia)) as Hm.
  pose proof (Z.div_mod n base ltac:(lia)) as Hd.
  destruct (digit_char_val (n mod base) ltac:(lia)) as [V Lw].
  destruct (Z.ltb_spec 0 (n / base)) as [Hq|Hq].
  - assert (Hlt : n / base < 2 ^ Z.of_nat f).
    { rewrite Nat2Z.inj_succ, Z.pow_succ_r in Hf by lia.
      apply Z.div_lt_upper_bound; [lia|].
      assert (0 < 2 ^ Z.of_nat f) by (apply Z.pow_pos_nonneg; lia). nia. }
    assert (Hfp : (0 < f)%nat). { destruct f; [|lia]. cbn in Hlt. lia. }
    destruct (IH (n / base) ltac:(lia) Hlt Hfp) as (I1 & I2 & I3).
    cbn [rev]. split; [|split].
    + eapply eq_ind with (P := Digits base _); [|symmetry; exact Hd]. econstructor; eauto. lia.
    + cbn [forallb]. now rewrite Lw.
    + intros t E. destruct (rev (digits_rev f base (n / base))) as [|c l] eqn:R.
      * inversion I1. destruct s; discriminate.
      * cbn in E. injection E as -> <-. specialize (I3 l eq_refl). subst l.
        (* a leading zero of a positive number is impossible *)
        exfalso. inversion I1 as [c0 d0 V0 L0|s n0 c0 d0 D0 V0 L0 E0]; subst.
        -- change (digit_val "0") with (Some 0) in V0. injection V0 as V0. lia.
        -- destruct s as [|? [|? ?]]; cbn in E0; try discriminate. inversion D0; destruct s; discriminate.
  - assert (E : n / base = 0) by (pose proof (Z.div_pos n base ltac:(lia) ltac:(lia)); lia).
    rewrite E, Z.mul_0_r, Z.add_0_l in Hd. cbn [rev app]. split; [|split].
    + eapply eq_ind with (P := Digits base _); [|symmetry; exact Hd]. constructor; auto. lia.
    + cbn [forallb]. now rewrite Lw.
    + intros t Et. now injection Et as _ <-.
Qed.

Lemma appendNumber_ok base n : 2 <= base <= 16 -> INT_MIN < n <= INT_MAX ->
  exists s, appendNumber base n = Some s /\ Canonical base s n.
Proof.
  intros Hb Hn. unfold appendNumber. destruct (Z.eqb_spec n INT_MIN) as [->|Hne]; [lia|].
  set (m := if n <? 0 then - n else n).
  assert (Em : m = Z.abs n) by (subst m; destruct (Z.ltb_spec n 0); lia).
  assert (Hm : 0 <= m) by lia.
  assert (Hf : m < 2 ^ Z.of_nat (S (Z.to_nat (Z.log2 m)))).
  { rewrite Nat2Z.inj_succ, Z2Nat.id by apply Z.log2_nonneg.
    destruct (Z.eq_dec m 0) as [->|]; [cbn; lia|]. apply Z.log2_spec. lia. }
  destruct (digits_rev_ok base Hb _ m Hm Hf ltac:(lia)) as (D1 & D2 & D3).
  eexists. split; [reflexivity|]. exists (rev (digits_rev (S (Z.to_nat (Z.log2 m))) base m)).
  split; [now rewrite <- Em|]. split; [|split; auto].
  - rewrite rev_app_distr. destruct (n <? 0); reflexivity.
  - apply forallb_forall. intros x Hx. apply in_rev in Hx. rewrite forallb_forall in D2. auto.
Qed.

(** the number read back: a canonical numeral determines its number *)
Lemma Digits_nil base n : ~ Digits base [] n.
Proof. intros H. inversion H as [|s m c d D V L E]. destruct s; discriminate. Qed.
Lemma Digits_fun base s n m : Digits base s n -> Digits base s m -> n = m.
Proof.
  intros H; revert m; induction H as [c d V L|s n c d D IH V L]; intros m Hm;
    inversion Hm as [c' d' V' L' E'|s' n' c' d' D' V' L' E']; subst.
  - congruence.
  - destruct s' as [|? [|]]; [apply Digits_nil in D'; contradiction|discriminate|discriminate].
  - destruct s as [|? [|]]; [apply Digits_nil in D; contradiction|discriminate|discriminate].
  - apply app_inj_tail in E'. destruct E' as [-> ->]. rewrite (IH _ D'). congruence.
Qed.

Lemma Digits_nonneg base s n : 0 <= base -> Digits base s n -> 0 <= n.
Proof.
  assert (P : forall c d, digit_val c = Some d -> 0 <= d).
  { intros c d. unfold digit_val, is_digit, in_range.
    destruct (Z.leb_spec 48 (byte_val c)), (Z.leb_spec (byte_val c) 57), (Z.leb_spec 97 (byte_val c)),
      (Z.leb_spec (byte_val c) 102), (Z.leb_spec 65 (byte_val c)), (Z.leb_spec (byte_val c) 70);
    cbn [andb]; intros [=]; lia. }
  intros B; induction 1 as [c d V L|s n c d D IH V L]; [eauto|]. specialize (P _ _ V). nia.
Qed.

Lemma Digits_nominus base s n : Digits base s n -> ~ In "-"%char s.
Proof.
  induction 1 as [c d V L|s n c d D IH V L]; intros I.
  - destruct I as [->|[]]. change (digit_val "-") with (@None Z) in V; discriminate.
  - apply in_app_iff in I. destruct I as [I|[->|[]]]; [auto|].
    change (digit_val "-") with (@None Z) in V; discriminate.
Qed.

Lemma Canonical_inj base s n m : 0 <= base -> Canonical base s n -> Canonical base s m -> n = m.
Proof.
  intros B (ds & D & E & _) (ds' & D' & E' & _).
  pose proof (Digits_nominus _ _ _ D). pose proof (Digits_nominus _ _ _ D').
  pose proof (Digits_nonneg _ _ _ B D). pose proof (Digits_nonneg _ _ _ B D').
  destruct (Z.ltb_spec n 0), (Z.ltb_spec m 0); subst s.
  - injection E' as ->. pose proof (Digits_fun _ _ _ _ D D'). lia.
  - subst ds'. exfalso. apply H0. now left.
  - subst ds. exfalso. apply H. now left.
  - subst ds'. pose proof (Digits_fun _ _ _ _ D D'). lia.
Qed.

(** ** Percent decoding (C27) *)

(* what the loop does, as a function on the remaining input *)
Fixpoint pdec (fuel : nat) (s : bytes) : bytes :=
  match fuel with
  | O => []
  | S f =>
      match s with
      | [] => []
      | c :: t =>
          match t with
          | a :: b :: u => if Ascii.eqb c "%" then unhex2 a b :: pdec f u else c :: pdec f t
          | _ => c :: pdec f t
          end
      end
  end.

Lemma set_nth_app pre c d post : set_nth (length pre) c (pre ++ d :: post) = pre ++ c :: post.
Proof. induction pre; cbn; [reflexivity|]. now rewrite IHpre. Qed.
Lemma nth_error_mid (pre : bytes) c post : nth_error (pre ++ c :: post) (length pre) = Some c.
Proof. induction pre; cbn; auto. Qed.

(* invariant: buffer = written ++ junk ++ input-left, junk anything *)
Lemma pd_loop_ok : forall fuel out junk inp sz0 sz,
  (length inp <= fuel)%nat -> sz0 = (length out + length junk + length inp)%nat ->
  exists buf' junk', pd_loop fuel (out ++ junk ++ inp) (length out) (length out + length junk) sz0 sz
    = Some (buf', sz - Z.of_nat (length inp) + Z.of_nat (length (pdec fuel inp))) /\
    buf' = out ++ pdec fuel inp ++ junk' /\ (length (pdec fuel inp) <= length inp)%nat.
Proof.
  induction fuel as [|f IH]; intros out junk inp sz0 sz Hl Hs.
  - destruct inp; [|cbn in Hl; lia]. cbn [pd_loop].
    destruct (Nat.ltb_spec (length out + length junk) sz0); [cbn in Hs; lia|].
    cbn [negb]. exists (out ++ junk ++ []), junk. cbn. split; [f_equal; f_equal; lia|]. rewrite app_nil_r. auto.
  - destruct inp as [|c inp].
    + cbn [pd_loop]. destruct (Nat.ltb_spec (length out + length junk) sz0); [cbn in Hs; lia|].
      exists (out ++ junk ++ []), junk. cbn. split; [f_equal; f_equal; lia|]. rewrite app_nil_r. auto.
    + cbn [pd_loop]. cbn [length] in Hs, Hl.
      destruct (Nat.ltb_spec (length out + length junk) sz0); [|lia]. cbn [negb].
      assert (Ld : load (out ++ junk ++ c :: inp) (length out + length junk) = Some c).
      { unfold load. rewrite app_assoc, <- app_length. apply nth_error_mid. }
      rewrite Ld.
      assert (Lb : (length out <? length (out ++ junk ++ c :: inp))%nat = true).
      { apply Nat.ltb_lt. rewrite !app_length. cbn. lia. }
      (* storing one byte: the first junk byte, or the input byte itself, is overwritten *)
      assert (ST : forall x k skipped rest, c :: inp = skipped ++ rest -> length skipped = k -> (0 < k)%nat ->
        exists junk1, set_nth (length out) x (out ++ junk ++ c :: inp) = (out ++ [x]) ++ junk1 ++ rest /\
          length junk1 = (length junk + k - 1)%nat).
      { intros x k skipped rest E Ek Hk. destruct junk as [|j junk].
        - cbn [app]. rewrite set_nth_app. destruct skipped as [|s0 skipped]; [cbn in Ek; lia|].
          cbn in E. injection E as <- ->. exists skipped. rewrite <- app_assoc. cbn in *. split; [reflexivity|lia].
        - cbn [app]. rewrite set_nth_app. exists (junk ++ skipped). rewrite E, <- !app_assoc. cbn.
          split; [reflexivity|]. rewrite app_length. lia. }
      assert (PLAIN : pdec (S f) (c :: inp) = c :: pdec f inp ->
        exists buf' junk', pd_loop f (set_nth (length out) c (out ++ junk ++ c :: inp)) (length out + 1)
          (length out + length junk + 1) sz0 sz
          = Some (buf', sz - Z.of_nat (length (c :: inp)) + Z.of_nat (length (pdec (S f) (c :: inp)))) /\
          buf' = out ++ pdec (S f) (c :: inp) ++ junk' /\ (length (pdec (S f) (c :: inp)) <= length (c :: inp))%nat).
      { intros Ep. destruct (ST c 1%nat [c] inp eq_refl eq_refl ltac:(lia)) as (j1 & E1 & L1). rewrite E1.
        destruct (IH (out ++ [c]) j1 inp sz0 sz) as (b' & j' & I1 & I2 & I3); [lia|rewrite app_length; cbn; lia|].
        rewrite app_length in I1. cbn [length] in I1.
        replace (length out + 1 + length j1)%nat with (length out + length junk + 1)%nat in I1 by lia.
        exists b', j'. rewrite Ep. split; [rewrite I1; f_equal; f_equal; cbn [length]; lia|].
        split; [rewrite I2, <- app_assoc; reflexivity|cbn [length]; lia]. }
      destruct (Ascii.eqb_spec c "%") as [->|NC]; cbn [andb].
      * destruct (Nat.ltb_spec (length out + length junk + 2) sz0) as [H2|H2].
        -- destruct inp as [|a [|b inp]]; cbn [length] in *; try lia.
           assert (La : load (out ++ junk ++ "%"%char :: a :: b :: inp) (length out + length junk + 1) = Some a).
           { unfold load. replace (out ++ junk ++ "%"%char :: a :: b :: inp) with ((out ++ junk ++ ["%"%char]) ++ a :: b :: inp)
               by (rewrite <- !app_assoc; reflexivity).
             replace (length out + length junk + 1)%nat with (length (out ++ junk ++ ["%"%char]))
               by (rewrite !app_length; cbn; lia). apply nth_error_mid. }
           assert (Lb2 : load (out ++ junk ++ "%"%char :: a :: b :: inp) (length out + length junk + 2) = Some b).
           { unfold load. replace (out ++ junk ++ "%"%char :: a :: b :: inp) with ((out ++ junk ++ ["%"%char; a]) ++ b :: inp)
               by (rewrite <- !app_assoc; reflexivity).
             replace (length out + length junk + 2)%nat with (length (out ++ junk ++ ["%"%char; a]))
               by (rewrite !app_length; cbn; lia). apply nth_error_mid. }
           rewrite La, Lb2, Lb.
           destruct (ST (unhex2 a b) 3%nat ["%"%char; a; b] inp eq_refl eq_refl ltac:(lia)) as (j1 & E1 & L1).
           rewrite E1.
           destruct (IH (out ++ [unhex2 a b]) j1 inp sz0 (sz - 2)) as (b' & j' & I1 & I2 & I3);
             [lia|rewrite app_length; cbn; lia|].
           rewrite app_length in I1. cbn [length] in I1.
           replace (length out + 1 + length j1)%nat with (length out + length junk + 3)%nat in I1 by lia.
           exists b', j'. cbn [pdec]. rewrite Ascii.eqb_refl.
           split; [rewrite I1; f_equal; f_equal; cbn [length]; lia|].
           split; [rewrite I2, <- app_assoc; reflexivity|cbn [length]; lia].
        -- rewrite Lb. apply PLAIN. destruct inp as [|a [|b inp]]; cbn [length] in *; try lia; reflexivity.
      * rewrite Lb. apply PLAIN. cbn [pdec]. destruct inp as [|a [|b inp]]; try reflexivity.
        apply Ascii.eqb_neq in NC. now rewrite NC.
Qed.

Lemma percentDecode_pdec b : percentDecode_bytes b = Some (pdec (length b) b).
Proof.
  unfold percentDecode_bytes. destruct b as [|c b]; [reflexivity|].
  unfold percentDecodeInPlace. set (s := c :: b).
  destruct (pd_loop_ok (length s) [] [] s (length s) (Z.of_nat (length s)) ltac:(lia) eq_refl) as (b' & j & E & E2 & L).
  cbn [app length Nat.add] in E. rewrite E.
  destruct (Z.ltb_spec (Z.of_nat (length s) - Z.of_nat (length s) + Z.of_nat (length (pdec (length s) s))) 0); [lia|].
  f_equal. rewrite E2. replace (Z.to_nat _) with (length (pdec (length s) s)) by lia.
  cbn [app]. rewrite firstn_app, firstn_all, Nat.sub_diag. cbn. apply app_nil_r.
Qed.

Lemma pdec_length f : forall s, (length (pdec f s) <= length s)%nat.
Proof.
  assert (H : forall n f s, (length s < n)%nat -> (length (pdec f s) <= length s)%nat).
  { induction n as [|n IH]; intros g s L; [lia|]. destruct g as [|g]; [cbn; lia|]. destruct s as [|c s]; [cbn; lia|].
    cbn [pdec length] in *. destruct s as [|a [|b u]].
    - cbn. destruct g; cbn; lia.
    - cbn [length] in *. specialize (IH g [a] ltac:(cbn; lia)). cbn [length] in *. lia.
    - destruct (Ascii.eqb c "%"); cbn [length] in *.
      + specialize (IH g u ltac:(lia)). lia.
      + specialize (IH g (a :: b :: u) ltac:(cbn; lia)). cbn [length] in IH. lia. }
  intros s. apply (H (S (length s))). lia.
Qed.

Lemma unhex2_hexbyte a b : is_xdigit a = true -> is_xdigit b = true -> unhex2 a b = hexbyte a b.
Proof.
  assert (H : forallb (fun a => if is_xdigit a then forallb (fun b => if is_xdigit b then
     Ascii.eqb (unhex2 a b) (hexbyte a b) else true) all_bytes else true) all_bytes = true)
    by (vm_compute; reflexivity).
  intros Ha Hb. pose proof (forall_bytes _ H a) as H1. cbv beta in H1. rewrite Ha in H1.
  pose proof (forall_bytes _ H1 b) as H2. cbv beta in H2. rewrite Hb in H2. now apply Ascii.eqb_eq in H2.
Qed.

Lemma pdec_spec s t : PDecode s t -> forall f, (length s <= f)%nat -> pdec f s = t.
Proof.
  induction 1 as [|a b s t Ha Hb H IH|c s t Hc H IH]; intros f Hf.
  - destruct f; reflexivity.
  - cbn [length] in Hf. destruct f as [|f]; [lia|]. cbn [pdec]. rewrite Ascii.eqb_refl, unhex2_hexbyte by auto.
    f_equal. apply IH. lia.
  - cbn [length] in Hf. destruct f as [|f]; [lia|]. cbn [pdec]. apply Ascii.eqb_neq in Hc. rewrite Hc.
    rewrite (IH f) by lia. destruct s as [|? [|? ?]]; reflexivity.
Qed.

Lemma hexbyte_hexdigit c : hexbyte (hexdigit (nat_of_ascii c / 16)) (hexdigit (nat_of_ascii c mod 16)) = c /\
  is_xdigit (hexdigit (nat_of_ascii c / 16)) = true /\ is_xdigit (hexdigit (nat_of_ascii c mod 16)) = true.
Proof.
  assert (H : forallb (fun c =>
    Ascii.eqb (hexbyte (hexdigit (nat_of_ascii c / 16)) (hexdigit (nat_of_ascii c mod 16))) c &&
    is_xdigit (hexdigit (nat_of_ascii c / 16)) && is_xdigit (hexdigit (nat_of_ascii c mod 16)))
    all_bytes = true) by (vm_compute; reflexivity).
  pose proof (forall_bytes _ H c) as H1. cbv beta in H1. rewrite !andb_true_iff in H1.
  destruct H1 as [[A B] C]. apply Ascii.eqb_eq in A. auto.
Qed.

Lemma pencode_decodes keep s : keep "%"%char = false -> PDecode (pencode keep s) s.
Proof.
  intros K. induction s as [|c s IH]; cbn [pencode flat_map]; [constructor|].
  destruct (keep c) eqn:E; cbn [app].
  - constructor; auto. intros ->. congruence.
  - destruct (hexbyte_hexdigit c) as (A & B & C). rewrite <- A at 3. constructor; auto.
Qed.

(** ** Header collection (C30) *)

Lemma find_field_first hs name pre f v post :
  hs = pre ++ (f, v) :: post -> lower f = lower name ->
  (forall h, In h pre -> lower (fst h) <> lower name) -> find_field asciiEqualsCI hs name = Some v.
Proof.
  intros -> E. induction pre as [|[f' v'] pre IH]; intros N; cbn.
  - apply asciiEqualsCI_iff in E. now rewrite E.
  - destruct (asciiEqualsCI f' name) eqn:Q.
    + apply asciiEqualsCI_iff in Q. exfalso. apply (N (f', v')); cbn; auto.
    + apply IH. intros h Hh. apply N. now right.
Qed.
Lemma find_field_none hs name : (forall h, In h hs -> lower (fst h) <> lower name) ->
  find_field asciiEqualsCI hs name = None.
Proof.
  induction hs as [|[f v] hs IH]; intros N; cbn; auto. destruct (asciiEqualsCI f name) eqn:Q.
  - apply asciiEqualsCI_iff in Q. exfalso. apply (N (f, v)); cbn; auto.
  - apply IH. intros h Hh. apply N. now right.
Qed.
Lemma getFieldValues_spec hs name :
  getFieldValues hs name = map snd (filter (fun h => beqb (lower (fst h)) (lower name)) hs).
Proof.
  induction hs as [|[f v] hs IH]; cbn [getFieldValues filter fst]; auto. rewrite IH.
  destruct (asciiEqualsCI f name) eqn:Q; destruct (beqb (lower f) (lower name)) eqn:R; auto.
  - apply asciiEqualsCI_iff in Q. apply beqb_false in R. contradiction.
  - apply beqb_true in R. apply asciiEqualsCI_iff in R. congruence.
Qed.
Lemma testFieldValue_iff hs name value : testFieldValue hs name value = true <->
  exists f v, In (f, v) hs /\ lower f = lower name /\ lower v = lower value.
Proof.
  induction hs as [|[f v] hs IH]; cbn.
  - split; [discriminate|]. intros (? & ? & [] & _).
  - assert (LEN : forall a b : bytes, lower a = lower b -> length a = length b).
    { intros a b E. apply (f_equal (@length ascii)) in E. now rewrite !lower_length in E. }
    assert (TL : testFieldValue hs name value = true -> exists f0 v0, ((f, v) = (f0, v0) \/ In (f0, v0) hs) /\
      lower f0 = lower name /\ lower v0 = lower value).
    { intros H. apply IH in H. destruct H as (f0 & v0 & I & J). exists f0, v0. auto. }
    destruct (Nat.eqb_spec (length f) (length name)) as [L1|L1]; cbn [negb orb].
    + destruct (Nat.eqb_spec (length v) (length value)) as [L2|L2]; cbn [negb orb].
      * destruct (asciiEqualsCI f name) eqn:Q1; cbn [andb];
        [destruct (asciiEqualsCI v value) eqn:Q2|].
        -- apply asciiEqualsCI_iff in Q1, Q2. split; auto. intros _. exists f, v. auto.
        -- split; auto. intros (f0 & v0 & [[= <- <-]|I] & J1 & J2).
           ++ apply asciiEqualsCI_iff in J2. congruence.
           ++ apply IH. eauto.
        -- split; auto. intros (f0 & v0 & [[= <- <-]|I] & J1 & J2).
           ++ apply asciiEqualsCI_iff in J1. congruence.
           ++ apply IH. eauto.
      * split; auto. intros (f0 & v0 & [[= <- <-]|I] & J1 & J2); [apply LEN in J2; contradiction|]. apply IH. eauto.
    + split; auto. intros (f0 & v0 & [[= <- <-]|I] & J1 & J2); [apply LEN in J1; contradiction|]. apply IH. eauto.
Qed.

Lemma find_field_tok hs tok : lower tok = tok -> find_field asciiEqualsCI_lower hs tok = find_field asciiEqualsCI hs tok.
Proof.
  intros L. induction hs as [|[f v] hs IH]; cbn; auto. rewrite asciiEqualsCI_lower_agrees by auto. now rewrite IH.
Qed.

(** ** Raw header lines (C31) *)

Lemma colon_pos_app f t : ~ In ":"%char f -> colon_pos (f ++ ":"%char :: t) = length f.
Proof.
  induction f as [|c f IH]; intros N; cbn; auto.
  destruct (Ascii.eqb_spec c ":"); [exfalso; apply N; now left|]. rewrite IH; auto. intros I. apply N. now right.
Qed.
Lemma colon_pos_none f : ~ In ":"%char f -> colon_pos f = length f.
Proof.
  induction f as [|c f IH]; intros N; cbn; auto.
  destruct (Ascii.eqb_spec c ":"); [exfalso; apply N; now left|]. rewrite IH; auto. intros I. apply N. now right.
Qed.
Lemma skip_sp_repeat n v : (forall t, v <> " "%char :: t) -> skip_sp (repeat " "%char n ++ v) = v.
Proof.
  intros H. induction n; cbn; auto. destruct v as [|c v]; auto. cbn.
  destruct (Ascii.eqb_spec c " "); auto. subst. exfalso. eapply H; reflexivity.
Qed.
Lemma setFromRawHeader_ok f n v : ~ In ":"%char f -> (forall t, v <> " "%char :: t) ->
  setFromRawHeader (f ++ lit ":" ++ repeat " "%char n ++ v) = (f, v).
Proof.
  intros Nf Nv. change (lit ":" ++ repeat " "%char n ++ v) with (":"%char :: repeat " "%char n ++ v).
  unfold setFromRawHeader. rewrite colon_pos_app by auto.
  destruct (f ++ ":"%char :: repeat " "%char n ++ v) as [|x l] eqn:E; [destruct f; discriminate|].
  rewrite <- E. f_equal.
  - rewrite firstn_app, firstn_all, Nat.sub_diag. cbn. apply app_nil_r.
  - destruct (Nat.ltb_spec (length f) (length (f ++ ":"%char :: repeat " "%char n ++ v))) as [L|L].
    + replace (skipn (S (length f)) _) with (repeat " "%char n ++ v); [now apply skip_sp_repeat|].
      clear. induction f; cbn in *; auto.
    + rewrite app_length in L. cbn in L. lia.
Qed.
Lemma setFromRawHeader_nocolon raw : ~ In ":"%char raw -> setFromRawHeader raw = (raw, []).
Proof.
  intros N. unfold setFromRawHeader. destruct raw as [|c raw]; auto. set (r := c :: raw) in *.
  rewrite colon_pos_none by auto. rewrite firstn_all, Nat.ltb_irrefl. reflexivity.
Qed.

(** ** Status table (C32) *)

Definition assocZ {A} (k : Z) (l : list (Z * A)) : option A :=
  match find (fun p => fst p =? k) l with Some p => Some (snd p) | None => None end.

Lemma status_spec code : statusCodeAndMessage code =
  match assocZ code std_status with Some m => Some (status_text code (lit m)) | None => None end.
Proof.
  destruct (Z_le_gt_dec 100 code) as [A|A]; [destruct (Z_le_gt_dec code 505) as [B|B]|].
  - assert (E : code = Z.of_nat (Z.to_nat (code - 100)) + 100) by lia.
    assert (L : (Z.to_nat (code - 100) < 406)%nat) by lia. rewrite E. clear E A B.
    revert L. generalize (Z.to_nat (code - 100)) as n. clear code. intros n L.
    assert (H : forallb (fun n => let code := Z.of_nat n + 100 in
       match statusCodeAndMessage code,
         match assocZ code std_status with Some m => Some (status_text code (lit m)) | None => None end with
       | Some x, Some y => beqb x y | None, None => true | _, _ => false end) (seq 0 406) = true)
       by (vm_compute; reflexivity).
    rewrite forallb_forall in H. specialize (H n ltac:(apply in_seq; lia)). cbv beta zeta in H.
    destruct (statusCodeAndMessage (Z.of_nat n + 100)), (assocZ (Z.of_nat n + 100) std_status); try discriminate; auto.
    apply beqb_true in H. now subst.
  - assert (N : assocZ code std_status = None).
    { unfold assocZ. destruct (find _ std_status) as [p|] eqn:F; auto. apply find_some in F.
      destruct F as [I Q]. apply Z.eqb_eq in Q.
      assert (HA : forallb (fun p => fst p <=? 505) std_status = true) by reflexivity.
      rewrite forallb_forall in HA. specialize (HA p I). apply Z.leb_le in HA. lia. }
    rewrite N. unfold statusCodeAndMessage.
    destruct code as [|p|p]; try lia; auto.
    do 9 (destruct p as [p|p|]; try reflexivity; try lia).
  - assert (N : assocZ code std_status = None).
    { unfold assocZ. destruct (find _ std_status) as [p|] eqn:F; auto. apply find_some in F.
      destruct F as [I Q]. apply Z.eqb_eq in Q.
      assert (HA : forallb (fun p => 100 <=? fst p) std_status = true) by reflexivity.
      rewrite forallb_forall in HA. specialize (HA p I). apply Z.leb_le in HA. lia. }
    rewrite N. unfold statusCodeAndMessage.
    destruct code as [|p|p]; try lia; auto.
    do 9 (destruct p as [p|p|]; try reflexivity; try lia).
Qed.

Lemma std_status_facts : forallb (fun p => (100 <=? fst p) && (fst p <=? 599) &&
  negb (Nat.eqb (String.length (snd p)) 0)) std_status = true.
Proof. reflexivity. Qed.

(** ** Dates (C33) *)

Lemma tab_intNames n : 0 <= n <= 60 -> tab intNames n = Some (two n).
Proof.
  intros H. unfold tab. destruct (Z.ltb_spec n 0); [lia|].
  assert (E : n = Z.of_nat (Z.to_nat n)) by lia. assert (L : (Z.to_nat n < 61)%nat) by lia.
  rewrite E. rewrite Nat2Z.id. revert L. generalize (Z.to_nat n). clear. intros n L.
  do 61 (destruct n as [|n]; [reflexivity|]). lia.
Qed.
Lemma tab_day n : 1 <= n <= 7 -> tab dayNames n = Some (day_name n).
Proof.
  intros H. unfold tab. destruct (Z.ltb_spec n 0); [lia|]. unfold day_name.
  assert (E : n = Z.of_nat (Z.to_nat (n - 1)) + 1) by lia. assert (L : (Z.to_nat (n - 1) < 7)%nat) by lia.
  rewrite E. revert L. generalize (Z.to_nat (n - 1)). clear. intros n L.
  do 7 (destruct n as [|n]; [reflexivity|]). lia.
Qed.
Lemma tab_month n : 1 <= n <= 12 -> tab monthNames n = Some (month_name n).
Proof.
  intros H. unfold tab. destruct (Z.ltb_spec n 0); [lia|]. unfold month_name.
  assert (E : n = Z.of_nat (Z.to_nat (n - 1)) + 1) by lia. assert (L : (Z.to_nat (n - 1) < 12)%nat) by lia.
  rewrite E. revert L. generalize (Z.to_nat (n - 1)). clear. intros n L.
  do 12 (destruct n as [|n]; [reflexivity|]). lia.
Qed.
Lemma dig_char n : 0 <= n <= 9 -> digit_char n = dig n.
Proof.
  intros H. assert (E : n = Z.of_nat (Z.to_nat n)) by lia. assert (L : (Z.to_nat n < 10)%nat) by lia.
  rewrite E. revert L. generalize (Z.to_nat n). clear. intros n L.
  do 10 (destruct n as [|n]; [reflexivity|]). lia.
Qed.
Lemma digits_rev_four n fuel : (4 <= fuel)%nat -> 1000 <= n <= 9999 -> rev (digits_rev fuel 10 n) = four n.
Proof.
  intros Hf H. do 4 (destruct fuel as [|fuel]; [lia|]). cbn [digits_rev].
  assert (A1 : n / 10 / 10 = n / 100) by (rewrite Z.div_div by lia; reflexivity).
  assert (A2 : n / 100 / 10 = n / 1000) by (rewrite Z.div_div by lia; reflexivity).
  assert (A3 : n / 1000 / 10 = 0) by (apply Z.div_small; pose proof (Z.div_le_mono n 9999 1000 ltac:(lia) ltac:(lia)); change (9999/1000) with 9 in *; pose proof (Z.div_pos n 1000 ltac:(lia) ltac:(lia)); lia).
  rewrite A1, A2, A3.
  assert (B1 : 0 < n / 1000) by (apply Z.div_str_pos; lia).
  assert (B2 : 0 < n / 100) by (apply Z.div_str_pos; lia).
  assert (B3 : 0 < n / 10) by (apply Z.div_str_pos; lia).
  assert (B4 : n / 1000 <= 9) by (pose proof (Z.div_le_mono n 9999 1000 ltac:(lia) ltac:(lia)); change (9999/1000) with 9 in *; lia).
  replace (0 <? n / 10) with true by (symmetry; apply Z.ltb_lt; auto).
  replace (0 <? n / 100) with true by (symmetry; apply Z.ltb_lt; auto).
  replace (0 <? n / 1000) with true by (symmetry; apply Z.ltb_lt; auto).
  change (0 <? 0) with false. cbv match. cbn [rev app]. unfold four.
  rewrite (Z.mod_small (n / 1000) 10) by lia.
  rewrite !dig_char; try reflexivity; try lia.
  all: match goal with |- 0 <= ?x mod 10 <= 9 => pose proof (Z.mod_pos_bound x 10 ltac:(lia)); lia end.
Qed.
Lemma appendNumber_four n : 1000 <= n <= 9999 -> appendNumber 10 n = Some (four n).
Proof.
  intros H. unfold appendNumber. unfold INT_MIN. destruct (Z.eqb_spec n (-2147483648)); [lia|].
  destruct (Z.ltb_spec n 0); [lia|]. rewrite app_nil_r. f_equal. apply digits_rev_four; auto.
  assert (9 <= Z.log2 n) by (apply Z.log2_le_pow2; [lia|]; change (2^9) with 512; lia). lia.
Qed.

Record valid_dt (d : dt) : Prop := mkValid {
  v_dow : 1 <= d_dow d <= 7; v_day : 1 <= d_day d <= 31; v_month : 1 <= d_month d <= 12;
  v_hour : 0 <= t_hour d <= 23; v_min : 0 <= t_min d <= 59; v_sec : 0 <= t_sec d <= 59 }.

Lemma httpDate_ok d : valid_dt d -> 1000 <= d_year d <= 9999 ->
  httpDate d = Some (rfc1123 (d_dow d) (d_day d) (d_month d) (d_year d) (t_hour d) (t_min d) (t_sec d)).
Proof.
  intros [V1 V2 V3 V4 V5 V6] Y. unfold httpDate.
  rewrite tab_day, tab_month, appendNumber_four, !tab_intNames by lia. reflexivity.
Qed.

Lemma dig_inj a b : 0 <= a <= 9 -> 0 <= b <= 9 -> dig a = dig b -> a = b.
Proof.
  unfold dig. intros Ha Hb E. apply (f_equal nat_of_ascii) in E.
  rewrite !nat_ascii_embedding in E by lia. lia.
Qed.
Lemma div_digit a k : 0 < k -> 0 <= a < 10 * k -> 0 <= a / k <= 9.
Proof.
  intros Hk Ha. pose proof (Z.div_pos a k ltac:(lia) Hk).
  pose proof (Z.div_lt_upper_bound a k 10 Hk ltac:(lia)). lia.
Qed.
Lemma two_inj a b : 0 <= a <= 99 -> 0 <= b <= 99 -> two a = two b -> a = b.
Proof.
  unfold two. intros Ha Hb [= E1 E2].
  pose proof (Z.mod_pos_bound a 10 ltac:(lia)). pose proof (Z.mod_pos_bound b 10 ltac:(lia)).
  apply dig_inj in E1; [|apply div_digit; lia..].
  apply dig_inj in E2; [|lia..].
  rewrite (Z.div_mod a 10), (Z.div_mod b 10) by lia. lia.
Qed.
Lemma four_inj a b : 1000 <= a <= 9999 -> 1000 <= b <= 9999 -> four a = four b -> a = b.
Proof.
  unfold four. intros Ha Hb [= E1 E2 E3 E4].
  pose proof (Z.mod_pos_bound a 10 ltac:(lia)). pose proof (Z.mod_pos_bound b 10 ltac:(lia)).
  pose proof (Z.mod_pos_bound (a/10) 10 ltac:(lia)). pose proof (Z.mod_pos_bound (b/10) 10 ltac:(lia)).
  pose proof (Z.mod_pos_bound (a/100) 10 ltac:(lia)). pose proof (Z.mod_pos_bound (b/100) 10 ltac:(lia)).
  apply dig_inj in E1; [|apply div_digit; lia..].
  apply dig_inj in E2; [|lia..]. apply dig_inj in E3; [|lia..]. apply dig_inj in E4; [|lia..].
  pose proof (Z.div_mod a 10 ltac:(lia)). pose proof (Z.div_mod b 10 ltac:(lia)).
  pose proof (Z.div_mod (a/10) 10 ltac:(lia)). pose proof (Z.div_mod (b/10) 10 ltac:(lia)).
  pose proof (Z.div_mod (a/100) 10 ltac:(lia)). pose proof (Z.div_mod (b/100) 10 ltac:(lia)).
  rewrite !Z.div_div in * by lia. change (10*10) with 100 in *. change (100*10) with 1000 in *. lia.
Qed.
Lemma month_inj a b : 1 <= a <= 12 -> 1 <= b <= 12 -> month_name a = month_name b -> a = b.
Proof.
  unfold month_name. intros Ha Hb.
  assert (Ea : a = Z.of_nat (Z.to_nat (a - 1)) + 1) by lia. assert (La : (Z.to_nat (a - 1) < 12)%nat) by lia.
  assert (Eb : b = Z.of_nat (Z.to_nat (b - 1)) + 1) by lia. assert (Lb : (Z.to_nat (b - 1) < 12)%nat) by lia.
  rewrite Ea, Eb. clear Ea Eb Ha Hb. revert La Lb. generalize (Z.to_nat (a - 1)) (Z.to_nat (b - 1)). clear. intros a b La Lb.
  replace (Z.of_nat a + 1 - 1) with (Z.of_nat a) by lia. replace (Z.of_nat b + 1 - 1) with (Z.of_nat b) by lia.
  rewrite !Nat2Z.id.
  do 12 (destruct a as [|a]; [do 12 (destruct b as [|b]; [try reflexivity; discriminate|]); lia|]). lia.
Qed.
Lemma name_len n : 1 <= n <= 7 -> length (day_name n) = 3%nat.
Proof.
  intros H. unfold day_name. assert (L : (Z.to_nat (n - 1) < 7)%nat) by lia. revert L.
  generalize (Z.to_nat (n - 1)). clear. intros n L. do 7 (destruct n as [|n]; [reflexivity|]). lia.
Qed.
Lemma month_len n : 1 <= n <= 12 -> length (month_name n) = 3%nat.
Proof.
  intros H. unfold month_name. assert (L : (Z.to_nat (n - 1) < 12)%nat) by lia. revert L.
  generalize (Z.to_nat (n - 1)). clear. intros n L. do 12 (destruct n as [|n]; [reflexivity|]). lia.
Qed.

Lemma app_len_inj' (a b c d : bytes) : length a = length c -> a ++ b = c ++ d -> a = c /\ b = d.
Proof.
  revert c; induction a as [|x a IH]; intros [|y c]; cbn; try discriminate; auto.
  intros L E. injection E as -> E. injection L as L. destruct (IH _ L E) as [-> ->]. auto.
Qed.

Lemma rfc1123_inj w d mo y h mi s w' d' mo' y' h' mi' s' :
  1 <= w <= 7 -> 1 <= w' <= 7 -> 1 <= d <= 31 -> 1 <= d' <= 31 -> 1 <= mo <= 12 -> 1 <= mo' <= 12 ->
  1000 <= y <= 9999 -> 1000 <= y' <= 9999 -> 0 <= h <= 23 -> 0 <= h' <= 23 -> 0 <= mi <= 59 -> 0 <= mi' <= 59 ->
  0 <= s <= 59 -> 0 <= s' <= 59 ->
  rfc1123 w d mo y h mi s = rfc1123 w' d' mo' y' h' mi' s' ->
  d = d' /\ mo = mo' /\ y = y' /\ h = h' /\ mi = mi' /\ s = s'.
Proof.
  intros. unfold rfc1123 in *.
  match goal with H : _ ++ _ = _ |- _ => rename H into E end.
  apply app_len_inj' in E; [|rewrite !name_len; auto]. destruct E as [_ E].
  apply app_len_inj' in E; [|reflexivity]. destruct E as [_ E].
  apply app_len_inj' in E; [|reflexivity]. destruct E as [Ed E].
  apply app_len_inj' in E; [|reflexivity]. destruct E as [_ E].
  apply app_len_inj' in E; [|rewrite !month_len; auto]. destruct E as [Em E].
  apply app_len_inj' in E; [|reflexivity]. destruct E as [_ E].
  apply app_len_inj' in E; [|reflexivity]. destruct E as [Ey E].
  apply app_len_inj' in E; [|reflexivity]. destruct E as [_ E].
  apply app_len_inj' in E; [|reflexivity]. destruct E as [Eh E].
  apply app_len_inj' in E; [|reflexivity]. destruct E as [_ E].
  apply app_len_inj' in E; [|reflexivity]. destruct E as [Emi E].
  apply app_len_inj' in E; [|reflexivity]. destruct E as [_ E].
  apply app_len_inj' in E; [|reflexivity]. destruct E as [Es _].
  apply two_inj in Ed, Eh, Emi, Es; try lia. all: apply month_inj in Em; try lia. all: apply four_inj in Ey; try lia.
Qed.

(** ** Mime types (C34) *)

Lemma endsWithCI_dot base ext suf : ~ In "."%char ext -> ~ In "."%char (lit suf) ->
  endsWithCI (base ++ lit "." ++ ext) ("."%char :: lit suf) = beqb (lower ext) (lower (lit suf)).
Proof.
  intros Ne Ns. change (lit "." ++ ext) with ("."%char :: ext). unfold endsWithCI.
  set (sx := lit suf) in *. rewrite app_length. cbn [length].
  assert (NL : forall l, ~ In "."%char l -> ~ In "."%char (lower l)).
  { intros l N I. apply in_map_iff in I. destruct I as (c & Ec & Ic).
    assert (Q : forall c, to_lower c = "."%char -> c = "."%char).
    { clear. intros c. assert (H : forallb (fun c => negb (Ascii.eqb (to_lower c) ".") || Ascii.eqb c ".") all_bytes = true)
        by (vm_compute; reflexivity).
      pose proof (forall_bytes _ H c) as H1. cbv beta in H1. intros E. rewrite E in H1. cbn in H1. now apply Ascii.eqb_eq. }
    apply Q in Ec. subst. auto. }
  assert (KEY : forall (l1 l2 : bytes), ~ In "."%char l1 -> ~ In "."%char l2 ->
     forall p q, p ++ "."%char :: l1 = q ++ "."%char :: l2 -> l1 = l2).
  { intros l1 l2 N1 N2 p. induction p as [|x p IH]; intros [|y q] E; cbn in E.
    - now injection E.
    - injection E as _ E. exfalso. apply N1. rewrite E. apply in_or_app. right. now left.
    - injection E as _ E. exfalso. apply N2. rewrite <- E. apply in_or_app. right. now left.
    - injection E as _ E. eapply IH; eauto. }
  destruct (Nat.ltb_spec (length base + S (length ext)) (S (length sx))) as [L|L].
  - symmetry. apply beqb_false. intros E. apply (f_equal (@length ascii)) in E. rewrite !lower_length in E. lia.
  - apply eq_iff_eq_true. rewrite !beqb_true. set (k := (_ - _)%nat). split; intros E.
    + apply (KEY (lower ext) (lower sx) (NL _ Ne) (NL _ Ns) (lower base) (lower (firstn k (base ++ "."%char :: ext)))).
      change ("."%char :: lower sx) with (lower ("."%char :: sx)). rewrite <- E.
      change ("."%char :: lower ext) with (lower ("."%char :: ext)). unfold lower. rewrite <- !map_app.
      now rewrite firstn_skipn.
    + assert (Ll : length ext = length sx) by (apply (f_equal (@length ascii)) in E; now rewrite !lower_length in E).
      replace k with (length base) by (subst k; lia).
      rewrite skipn_app, skipn_all, Nat.sub_diag. cbn [skipn app lower map]. f_equal. exact E.
Qed.

Lemma mimeType_ext base ext : ~ In "."%char ext -> mimeType (base ++ lit "." ++ ext) = mime_of_ext ext.
Proof.
  intros N. unfold mimeType, mime_of_ext.
  assert (E : forall suf, ~ In "."%char (lit suf) -> lower (lit suf) = lit suf ->
     endsWithCI (base ++ lit "." ++ ext) ("."%char :: lit suf) = beqb (lower ext) (lit suf)).
  { intros suf Ns Ls. rewrite endsWithCI_dot by auto. now rewrite Ls. }
  change (lit ".html") with ("."%char :: lit "html"). change (lit ".jpg") with ("."%char :: lit "jpg").
  change (lit ".jpeg") with ("."%char :: lit "jpeg"). change (lit ".png") with ("."%char :: lit "png").
  change (lit ".gif") with ("."%char :: lit "gif"). change (lit ".css") with ("."%char :: lit "css").
  change (lit ".js") with ("."%char :: lit "js"). change (lit ".xml") with ("."%char :: lit "xml").
  rewrite !E by (try reflexivity; cbn; intuition discriminate).
  destruct (beqb (lower ext) (lit "html")); auto. destruct (beqb (lower ext) (lit "jpg")); auto.
Qed.

Lemma endsWithCI_nodot name suf : ~ In "."%char name -> endsWithCI name ("."%char :: lit suf) = false.
Proof.
  intros N. unfold endsWithCI. destruct (Nat.ltb_spec (length name) (length ("."%char :: lit suf))); auto.
  apply beqb_false. intros E. destruct (skipn _ name) as [|c l] eqn:S; [discriminate|].
  cbn in E. injection E as E _.
  assert (Q : forall c, to_lower c = "."%char -> c = "."%char).
  { clear. intros c. assert (H : forallb (fun c => negb (Ascii.eqb (to_lower c) ".") || Ascii.eqb c ".") all_bytes = true)
      by (vm_compute; reflexivity).
    pose proof (forall_bytes _ H c) as H1. cbv beta in H1. intros E. rewrite E in H1. cbn in H1. now apply Ascii.eqb_eq. }
  apply Q in E. subst. apply N. rewrite <- (firstn_skipn (length name - length ("."%char :: lit suf))). apply in_or_app.
  right. rewrite S. now left.
Qed.
Lemma mimeType_noext name : ~ In "."%char name -> mimeType name = lit "application/octet-stream".
Proof.
  intros N. unfold mimeType.
  change (lit ".html") with ("."%char :: lit "html"). change (lit ".jpg") with ("."%char :: lit "jpg").
  change (lit ".jpeg") with ("."%char :: lit "jpeg"). change (lit ".png") with ("."%char :: lit "png").
  change (lit ".gif") with ("."%char :: lit "gif"). change (lit ".css") with ("."%char :: lit "css").
  change (lit ".js") with ("."%char :: lit "js"). change (lit ".xml") with ("."%char :: lit "xml").
  now rewrite !endsWithCI_nodot.
Qed.
