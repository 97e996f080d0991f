(** Proofs about the request head parser: the automaton recognises exactly the grammar of ReqGrammar, and
    its actions extract exactly the fields of the grammar. *)
From Verif Require Import Bytes ByteHelpers Thin ReqGrammar ThinClasses.
Open Scope Z_scope.
Local Notation "c =a d" := (Ascii.eqb c d) (at level 70).

(** * 2. The automaton without its actions *)

Inductive dres := DErr | DMore (s : Z) | DDone (rest : bytes).
Fixpoint drun (s : Z) (l : bytes) : dres :=
  match l with
  | [] => DMore s
  | c :: t => match tra s c with TErr => DErr | TGo _ n => drun n t | TDone => DDone t end
  end.

Lemma drun_app s a b :
  drun s (a ++ b) = match drun s a with
                    | DErr => DErr | DMore n => drun n b | DDone r => DDone (r ++ b) end.
Proof.
  revert s; induction a as [|c a IH]; intros s; [reflexivity|].
  cbn [app drun]. destruct (tra s c); auto.
Qed.

(** ** Soundness: what is accepted from each state *)

Ltac case_eqb c d :=
  let E := fresh "E" in destruct (Ascii.eqb_spec c d) as [E|E];
  [try subst c | ].

Lemma acc_value l r : drun 19 l = DDone r ->
  exists v t, l = v ++ CR :: t /\ (forall c, In c v -> c <> CR) /\ drun 14 t = DDone r.
Proof.
  induction l as [|c l IH]; cbn [drun]; [discriminate|]. rewrite tr_19.
  case_eqb c CR; intros H.
  - exists [], l. repeat split; auto; intros ? [].  
  - destruct (IH H) as (v & t & -> & Hv & Ht). exists (c :: v), t. repeat split; auto.
    intros d [<-|Hd]; auto.
Qed.

Lemma acc_value_pad l r : drun 18 l = DDone r ->
  exists n v t, l = repeat SP n ++ v ++ CR :: t /\ (forall c, In c v -> c <> CR) /\
    (forall u, v <> SP :: u) /\ drun 14 t = DDone r.
Proof.
  induction l as [|c l IH]; cbn [drun]; [discriminate|]. rewrite tr_18.
  case_eqb c CR; intros H.
  - exists 0%nat, [], l. repeat split; auto; try easy.
  - case_eqb c SP.
    + destruct (IH H) as (n & v & t & -> & Hv & Hs & Ht). exists (S n), v, t. repeat split; auto.
    + apply acc_value in H. destruct H as (v & t & -> & Hv & Ht).
      exists 0%nat, (c :: v), t. repeat split; auto.
      * intros d [<-|Hd]; auto.
      * intros u; congruence.
Qed.

Lemma acc_name l r : drun 17 l = DDone r ->
  exists n t, l = n ++ lit ":" ++ t /\ forallb token_char n = true /\ drun 18 t = DDone r.
Proof.
  induction l as [|c l IH]; cbn [drun]; [discriminate|]. rewrite tr_17.
  case_eqb c ":"%char; intros H.
  - exists [], l. repeat split; auto.
  - destruct (token_char c) eqn:Ec; [|discriminate].
    destruct (IH H) as (n & t & -> & Hn & Ht). exists (c :: n), t. repeat split; auto.
    cbn. now rewrite Ec.
Qed.

Lemma acc_headers k : forall l r, (length l <= k)%nat -> drun 15 l = DDone r ->
  exists hs, Forall wf_hline hs /\ l = concat (map hline_text hs) ++ CRLF ++ r.
Proof.
  induction k as [|k IH]; intros l r Hk H.
  { destruct l; [discriminate|cbn in Hk; lia]. }
  destruct l as [|c l]; [discriminate|]. cbn [drun] in H. rewrite tr_15 in H.
  destruct (Ascii.eqb_spec c CR) as [->|Ecr].
  - destruct l as [|d l]; [discriminate|]. cbn [drun] in H. rewrite tr_16 in H.
    destruct (Ascii.eqb_spec d LF) as [->|]; [|discriminate]. injection H as <-.
    exists []. split; [constructor|reflexivity].
  - destruct (token_char c) eqn:Ec; [|discriminate].
    apply acc_name in H. destruct H as (n & t & -> & Hn & H).
    apply acc_value_pad in H. destruct H as (p & v & t' & -> & Hv & Hs & H).
    destruct t' as [|d t']; [discriminate|]. cbn [drun] in H. rewrite tr_14 in H.
    destruct (Ascii.eqb_spec d LF) as [->|]; [|discriminate].
    apply IH in H.
    + destruct H as (hs & Hhs & ->). exists (mkHline (c :: n) p v :: hs). split.
      * constructor; auto. repeat split; cbn; auto; try easy. now rewrite Ec.
      * cbn [map concat]. unfold hline_text, CRLF; cbn [hname hpad hvalue].
        rewrite <- !app_assoc. cbn. rewrite <- ?app_assoc. reflexivity.
    + cbn in Hk. rewrite ?app_length in Hk. cbn in Hk. rewrite ?app_length in Hk. cbn in Hk. lia.
Qed.

Lemma acc_digits_13 l r : drun 13 l = DDone r ->
  exists d t, l = d ++ CR :: t /\ forallb is_digit d = true /\ drun 14 t = DDone r.
Proof.
  induction l as [|c l IH]; cbn [drun]; [discriminate|]. rewrite tr_13.
  case_eqb c CR; intros H.
  - exists [], l. auto.
  - destruct (is_digit c) eqn:Ec; [|discriminate].
    destruct (IH H) as (n & t & -> & Hn & Ht). exists (c :: n), t. cbn. now rewrite Ec.
Qed.
Lemma acc_digits_11 l r : drun 11 l = DDone r ->
  exists d t, l = d ++ lit "." ++ t /\ forallb is_digit d = true /\ drun 12 t = DDone r.
Proof.
  induction l as [|c l IH]; cbn [drun]; [discriminate|]. rewrite tr_11.
  case_eqb c "."%char; intros H.
  - exists [], l. auto.
  - destruct (is_digit c) eqn:Ec; [|discriminate].
    destruct (IH H) as (n & t & -> & Hn & Ht). exists (c :: n), t. cbn. now rewrite Ec.
Qed.

Ltac step_char H t :=
  let c := fresh "c" in
  destruct t as [|c t]; [discriminate H|]; cbn [drun] in H;
  first [rewrite tr_5 in H | rewrite tr_6 in H | rewrite tr_7 in H | rewrite tr_8 in H | rewrite tr_9 in H
        | rewrite tr_14 in H ];
  let E := fresh in
  match type of H with context[Ascii.eqb ?x ?y] => destruct (Ascii.eqb_spec x y) as [E|E];
   [subst x | discriminate H] end.

Lemma acc_version l r : drun 5 l = DDone r ->
  exists ma mi t, l = lit "HTTP/" ++ ma ++ lit "." ++ mi ++ CRLF ++ t /\
    digits1 ma /\ digits1 mi /\ drun 15 t = DDone r.
Proof.
  intros H. do 5 step_char H l.
  destruct l as [|c l]; [discriminate|]. cbn [drun] in H. rewrite tr_10 in H.
  destruct (is_digit c) eqn:Ec; [|discriminate].
  apply acc_digits_11 in H. destruct H as (ma & t & -> & Hma & H).
  destruct t as [|d t]; [discriminate|]. cbn [drun] in H. rewrite tr_12 in H.
  destruct (is_digit d) eqn:Ed; [|discriminate].
  apply acc_digits_13 in H. destruct H as (mi & t' & -> & Hmi & H).
  step_char H t'.
  exists (c :: ma), (d :: mi), t'. repeat split; auto; try easy; cbn; now rewrite ?Ec, ?Ed.
Qed.

Lemma eqb_xdigit_u c : is_xdigit c = true -> (c =a "u") = false.
Proof. revert c. apply (fun H => H). intro c; destruct c as [[] [] [] [] [] [] [] []]; vm_compute; congruence. Qed.

(** text loops: from a loop state [n] everything up to the first non-text byte *)
Lemma acc_text (ok : ascii -> bool) n n1 n2 n3 (stop : ascii -> bool) :
  esc_states n n1 n2 n3 ->
  (forall c, stop c = false -> tra n c =
     if c =a "%" then TGo [] n1 else if ok c then TGo [] n else TErr) ->
  forall k l r, (length l <= k)%nat -> drun n l = DDone r ->
  exists x c t, l = x ++ c :: t /\ Text ok x /\ stop c = true /\ drun n (c :: t) = DDone r.
Proof.
  intros (E1 & E2 & E3) Hn. induction k as [|k IH]; intros l r Hk H.
  { destruct l; [discriminate|cbn in Hk; lia]. }
  destruct l as [|c l]; [discriminate|].
  destruct (stop c) eqn:Es.
  - exists [], c, l. repeat split; auto. constructor.
  - cbn [drun] in H. rewrite Hn in H by auto.
    destruct (Ascii.eqb_spec c "%"%char) as [->|Ep].
    + destruct l as [|a l]; [discriminate|]. cbn [drun] in H. rewrite E1 in H.
      destruct (Ascii.eqb_spec a "u"%char) as [->|Eu].
      * destruct l as [|a l]; [discriminate|]. cbn [drun] in H. rewrite E3 in H.
        destruct (is_xdigit a) eqn:Ea; [|discriminate].
        destruct l as [|b l]; [discriminate|]. cbn [drun] in H. rewrite E2 in H.
        destruct (is_xdigit b) eqn:Eb; [|discriminate].
        apply IH in H; [|cbn in Hk; lia]. destruct H as (x & c & t & -> & Hx & Hc & H).
        exists ("%"%char :: "u"%char :: a :: b :: x), c, t. repeat split; auto. now constructor.
      * destruct (is_xdigit a) eqn:Ea; [|discriminate].
        destruct l as [|b l]; [discriminate|]. cbn [drun] in H. rewrite E2 in H.
        destruct (is_xdigit b) eqn:Eb; [|discriminate].
        apply IH in H; [|cbn in Hk; lia]. destruct H as (x & c & t & -> & Hx & Hc & H).
        exists ("%"%char :: a :: b :: x), c, t. repeat split; auto. now constructor.
    + destruct (ok c) eqn:Eo; [|discriminate].
      apply IH in H; [|cbn in Hk; lia]. destruct H as (x & d & t & -> & Hx & Hd & H).
      exists (c :: x), d, t. repeat split; auto. now constructor.
Qed.

Definition stop_sp c := c =a SP.
Definition stop_sph c := (c =a SP) || (c =a "#").
Definition stop_path c := (c =a SP) || (c =a "#") || (c =a "?").

Lemma acc_fragment l r : drun 20 l = DDone r ->
  exists f t, l = f ++ lit " " ++ t /\ Text uri_char f /\ drun 5 t = DDone r.
Proof.
  intros H.
  assert (H21 : drun 21 l = DDone r).
  { destruct l as [|c l]; [discriminate|]. cbn [drun] in *. rewrite tr_20 in H. rewrite tr_21.
    destruct (c =a SP); [exact H|]. destruct (c =a "%"); [exact H|]. destruct (uri_char c); auto. }
  apply (acc_text uri_char 21 22 23 24 stop_sp esc_21) with (k := length l) in H21; [|..|lia].
  - destruct H21 as (x & c & t & -> & Hx & Hc & Hr). unfold stop_sp in Hc. apply Ascii.eqb_eq in Hc. subst c.
    cbn [drun] in Hr. rewrite tr_21, Ascii.eqb_refl in Hr. exists x, t. auto.
  - intros c Hc. rewrite tr_21. unfold stop_sp in Hc. now rewrite Hc.
Qed.

(* after the target: " " or "#fragment " *)
Lemma acc_after_target (s : Z) c t r (a1 a2 : list act) :
  tra s c = (if c =a SP then TGo a1 5 else if c =a "#" then TGo a2 20 else TErr) ->
  drun s (c :: t) = DDone r ->
  exists fr t', c :: t = match fr with None => [] | Some f => lit "#" ++ f end ++ lit " " ++ t' /\
    (forall f, fr = Some f -> Text uri_char f) /\ drun 5 t' = DDone r.
Proof.
  intros E H. cbn [drun] in H. rewrite E in H.
  destruct (Ascii.eqb_spec c SP) as [->|]; [|destruct (Ascii.eqb_spec c "#"%char) as [->|]; [|discriminate]].
  - exists None, t. repeat split; auto. discriminate.
  - apply acc_fragment in H. destruct H as (f & t' & -> & Hf & H).
    exists (Some f), t'. repeat split; auto. intros ? [= <-]; auto.
Qed.

Lemma acc_query l r : drun 34 l = DDone r ->
  exists q c t, l = q ++ c :: t /\ Text uri_char q /\ stop_sph c = true /\ drun 35 (c :: t) = DDone r.
Proof.
  intros H.
  assert (H21 : drun 35 l = DDone r).
  { destruct l as [|c l]; [discriminate|]. cbn [drun] in *. rewrite tr_34 in H. rewrite tr_35.
    destruct (c =a SP); [exact H|]. destruct (c =a "#"); [exact H|].
    destruct (c =a "%"); [exact H|]. destruct (uri_char c); auto. }
  apply (acc_text uri_char 35 36 37 38 stop_sph esc_35) with (k := length l) in H21; auto.
  intros c Hc. rewrite tr_35. unfold stop_sph in Hc. apply orb_false_iff in Hc.
  destruct Hc as [-> ->]. reflexivity.
Qed.

Lemma acc_target l r : drun 3 l = DDone r ->
  exists tg fr t, l = target_text tg ++ match fr with None => [] | Some f => lit "#" ++ f end ++ lit " " ++ t /\
   wf_target tg /\ (forall f, fr = Some f -> Text uri_char f) /\ drun 5 t = DDone r.
Proof.
  intros H. destruct l as [|c l]; [discriminate|]. cbn [drun] in H. rewrite tr_3 in H.
  assert (Abs : forall l, drun 26 l = DDone r -> exists x fr t, l =
     x ++ match fr with None => [] | Some f => lit "#" ++ f end ++ lit " " ++ t /\
     Text uri_char x /\ (forall f, fr = Some f -> Text uri_char f) /\ drun 5 t = DDone r).
  { clear. intros l H.
    apply (acc_text uri_char 26 27 28 29 stop_sph esc_26) with (k := length l) in H; [|..|lia].
    - destruct H as (x & c & t & -> & Hx & Hc & H).
      eapply acc_after_target in H.
      + destruct H as (fr & t' & -> & Hf & H). exists x, fr, t'. auto.
      + rewrite tr_26. unfold stop_sph in Hc. destruct (c =a SP); [reflexivity|]. cbn in Hc. rewrite Hc. reflexivity.
    - intros c Hc. rewrite tr_26. unfold stop_sph in Hc. apply orb_false_iff in Hc.
      destruct Hc as [-> ->]. reflexivity. }
  destruct (Ascii.eqb_spec c "*"%char) as [->|E1].
  { destruct l as [|d l]; [discriminate|]. eapply acc_after_target in H; [|apply tr_4].
    destruct H as (fr & t' & E & Hf & H). exists Star, fr, t'. cbn [target_text]. rewrite E.
    repeat split; auto. constructor. }
  destruct (Ascii.eqb_spec c "/"%char) as [->|E2].
  { apply (acc_text path_char 30 31 32 33 stop_path esc_30) with (k := length l) in H; [|..|lia].
    - destruct H as (x & c & t & -> & Hx & Hc & H).
      destruct (Ascii.eqb_spec c "?"%char) as [->|Eq].
      + cbn [drun] in H. rewrite tr_30 in H. cbn in H. apply acc_query in H.
        destruct H as (q & c & t' & -> & Hq & Hc' & H).
        eapply acc_after_target in H.
        * destruct H as (fr & t'' & E & Hf & H). exists (Origin x (Some q)), fr, t''.
          rewrite E. cbn [target_text]. rewrite <- !app_assoc. cbn [app lit list_ascii_of_string].
          repeat split; auto. now constructor.
        * rewrite tr_35. unfold stop_sph in Hc'. destruct (c =a SP); [reflexivity|].
          cbn in Hc'. rewrite Hc'. reflexivity.
      + eapply acc_after_target in H.
        * destruct H as (fr & t'' & E & Hf & H). exists (Origin x None), fr, t''.
          rewrite E. cbn [target_text]. rewrite <- !app_assoc. cbn [app lit list_ascii_of_string].
          repeat split; auto. now constructor.
        * rewrite tr_30. unfold stop_path in Hc. destruct (c =a SP); [reflexivity|].
          apply Ascii.eqb_neq in Eq. rewrite Eq in Hc. rewrite orb_false_r in Hc. cbn in Hc. rewrite Hc. reflexivity.
    - intros c Hc. rewrite tr_30. unfold stop_path in Hc. apply orb_false_iff in Hc. destruct Hc as [Hc ->].
      apply orb_false_iff in Hc. destruct Hc as [-> ->]. reflexivity. }
  destruct (Ascii.eqb_spec c ":"%char) as [->|E3].
  { apply Abs in H. destruct H as (x & fr & t & -> & Hx & Hf & H).
    exists (Absolute [] x), fr, t. repeat split; auto. now constructor. }
  destruct (scheme_char c) eqn:Ec; [|discriminate].
  assert (S : exists sc t, l = sc ++ lit ":" ++ t /\ forallb scheme_char sc = true /\ drun 26 t = DDone r).
  { clear - H. induction l as [|c l IH]; cbn [drun] in H; [discriminate|]. rewrite tr_25 in H.
    destruct (Ascii.eqb_spec c ":"%char) as [->|E].
    - exists [], l. auto.
    - destruct (scheme_char c) eqn:Ec; [|discriminate].
      destruct (IH H) as (sc & t & -> & Hs & Ht). exists (c :: sc), t. cbn. rewrite Ec. auto. }
  destruct S as (sc & t & -> & Hs & H').
  apply Abs in H'. destruct H' as (x & fr & t' & -> & Hx & Hf & H').
  exists (Absolute (c :: sc) x), fr, t'. cbn [target_text]. cbn [app]. rewrite <- !app_assoc.
  repeat split; auto. constructor; auto. cbn. now rewrite Ec.
Qed.

Lemma acc_method k : forall l r, (k <= 19)%nat -> drun (mstate (19 - k)) l = DDone r ->
  exists m t, l = m ++ lit " " ++ t /\ forallb method_char m = true /\ (length m <= k)%nat /\
    drun 3 t = DDone r.
Proof.
  induction k as [|k IH]; intros l r Hk H; (destruct l as [|c l]; [discriminate|]); cbn [drun] in H.
  - change (19 - 0)%nat with 19%nat in H. rewrite tr_m19 in H.
    destruct (Ascii.eqb_spec c SP) as [->|]; [|discriminate]. exists [], l. auto.
  - rewrite tr_m in H by lia. destruct (method_char c) eqn:Ec.
    + replace (S (19 - S k)) with (19 - k)%nat in H by lia.
      apply IH in H; [|lia]. destruct H as (m & t & -> & Hm & Hl & H).
      exists (c :: m), t. cbn. rewrite Ec. repeat split; auto. lia.
    + destruct (Ascii.eqb_spec c SP) as [->|]; [|discriminate]. exists [], l. cbn. repeat split; auto. lia.
Qed.

Lemma drun_sound l r : drun 1 l = DDone r -> exists h, wf_head h /\ l = head_text h ++ r.
Proof.
  destruct l as [|c l]; [discriminate|]. cbn [drun]. rewrite tr_1.
  destruct (method_char c) eqn:Ec; [|discriminate]. intros H.
  apply (acc_method 19) in H; [|lia]. destruct H as (m & t & -> & Hm & Hl & H).
  apply acc_target in H. destruct H as (tg & fr & t' & -> & Htg & Hfr & H).
  apply acc_version in H. destruct H as (ma & mi & t'' & -> & Hma & Hmi & H).
  apply acc_headers with (k := length t'') in H; [|lia]. destruct H as (hs & Hhs & ->).
  exists (mkHead (c :: m) tg fr ma mi hs). split.
  - constructor; cbn; auto. + now rewrite Ec. + lia.
  - unfold head_text, version_text, fragment_text; cbn [hd_method hd_target hd_fragment hd_major hd_minor hd_headers].
    cbn [app]. rewrite <- !app_assoc. reflexivity.
Qed.
