(** Invariants of the response parser: no assert() fails, every call ends. *)
From Verif Require Import Bytes ByteHelpers Helpers Joyent RespParser.
Open Scope Z_scope.

Definition field_hs (hs : hstate) : bool :=
  match hs with
  | h_matching_transfer_encoding_chunked | h_matching_connection_keep_alive | h_matching_connection_close
  | h_transfer_encoding_chunked | h_connection_keep_alive | h_connection_close => false
  | _ => true
  end.
Definition value_hs (hs : hstate) : bool :=
  match hs with h_connection | h_transfer_encoding => false | _ => true end.

(** parser states between two bytes *)
Definition HOk (h : hparser) : Prop :=
  0 <= h_cl h <= ULLONG_MAX /\
  match h_state h with
  | s_header_field => field_hs (h_hs h) = true
  | s_header_value => value_hs (h_hs h) = true
  | s_chunk_size_start => h_nread h = 0 /\ f_chunked h = true
  | s_chunk_size => f_chunked h = true /\ h_cl h < ULLONG_MAX
  | s_chunk_parameters | s_chunk_size_almost_done => f_chunked h = true /\ h_cl h < ULLONG_MAX
  | s_chunk_data_done => f_chunked h = true
  | s_chunk_data => f_chunked h = true /\ 0 < h_cl h < ULLONG_MAX
  | s_chunk_data_almost_done => f_chunked h = true /\ h_cl h = 0
  | s_body_identity => 0 < h_cl h < ULLONG_MAX
  | _ => True
  end.

Definition isSome {A} (m : option A) : bool := match m with Some _ => true | None => false end.
Definition re_state (s : jstate) : bool :=
  match s with
  | s_headers_almost_done | s_header_almost_done | s_header_field_start | s_headers_done | s_message_done => true
  | _ => false
  end.
Definition body_state (s : jstate) : bool :=
  match s with s_chunk_data | s_chunk_data_almost_done | s_body_identity | s_body_identity_eof => true | _ => false end.
Definition is_hf (s : jstate) := match s with s_header_field => true | _ => false end.
Definition is_hv (s : jstate) := match s with s_header_value => true | _ => false end.

Record JOk (h : hparser) (l : locals) : Prop := mkJOk {
  jo_h : HOk h;
  jo_errno : h_errno h = HPE_OK;
  jo_f : isSome (l_field l) = is_hf (h_state h);
  jo_v : isSome (l_value l) = is_hv (h_state h);
  jo_b : isSome (l_body l) = true -> body_state (h_state h) = true;
  jo_re : l_re l = true -> l_data l <> [] /\ re_state (h_state h) = true }.

(** a bound on the number of steps left *)
Definition mu (h : hparser) (l : locals) : nat :=
  match l_data l with
  | [] => 1 + marks l
  | _ :: _ => 6 * length (l_data l) +
      (if l_re l then match h_state h with s_header_field_start => 3 | s_headers_almost_done => 2 | _ => 1 end else 4)
  end%nat.

Lemma num_range c : IS_NUM c = true -> 0 <= num c <= 9.
Proof. unfold IS_NUM, num. intros H. apply andb_prop in H as [A B]. lia. Qed.
Lemma unhex_range c : -1 <= unhex c <= 15.
Proof.
  unfold unhex. repeat match goal with |- context[if ?b then _ else _] => destruct b eqn:? end;
  repeat match goal with H : _ && _ = true |- _ => apply andb_prop in H as [? ?] end; lia.
Qed.
Lemma u64_range z : 0 <= u64 z <= ULLONG_MAX.
Proof. unfold u64, ULLONG_MAX. pose proof (Z.mod_pos_bound z 18446744073709551616). lia. Qed.

Lemma field_first_ok c : field_hs (field_first c) = true.
Proof. unfold field_first. repeat match goal with |- context[if ?b then _ else _] => destruct b end; reflexivity. Qed.
Lemma match_word_hs w done c hs idx hs' idx' : match_word w done c hs idx = (hs', idx') ->
  hs' = h_general \/ hs' = done \/ hs' = hs.
Proof. unfold match_word. repeat match goal with |- context[if ?b then _ else _] => destruct b end; intros [= <- <-]; auto. Qed.
Lemma field_step_ok hs idx c : field_hs hs = true ->
  exists hs' idx', field_step hs idx c = Some (hs', idx') /\ field_hs hs' = true.
Proof.
  destruct hs; cbn [field_hs field_step]; try discriminate; intros _;
    try (eexists; eexists; split; [reflexivity|];
         repeat match goal with |- context[if ?b then _ else _] => destruct b end; reflexivity);
    match goal with |- context[match_word ?w ?d ?c ?h ?i] =>
      destruct (match_word w d c h i) as [hs' idx'] eqn:E; exists hs', idx'; split; [reflexivity|];
      apply match_word_hs in E as [->|[->| ->]]; reflexivity end.
Qed.

Lemma value_first_ok ch h h' : value_first ch h = Some h' -> 0 <= h_cl h <= ULLONG_MAX -> h_state h = s_header_value ->
  HOk h' /\ h_state h' = s_header_value /\ h_errno h' = h_errno h.
Proof.
  unfold value_first. intros E R S.
  destruct (h_hs h) eqn:Hs;
  try (injection E as <-; unfold HOk; hsimp; rewrite ?S; cbn; repeat match goal with |- context[if ?b then _ else _] => destruct b end;
    cbn; repeat split; auto; lia).
  destruct (IS_NUM ch) eqn:N; cbn [negb] in E; [|discriminate]. injection E as <-.
  unfold HOk; hsimp; rewrite S, Hs; cbn. apply num_range in N. unfold ULLONG_MAX in *. repeat split; auto; lia.
Qed.
Lemma value_step_ok ch h : HOk h -> h_state h = s_header_value ->
  match value_step ch h with
  | VOk h' => HOk h' /\ h_state h' = s_header_value /\ h_errno h' = h_errno h
  | VBad => True
  | VAssert => False
  end.
Proof.
  unfold HOk, value_step. intros [R V] S. rewrite S in V.
  destruct (h_hs h) eqn:Hs; cbn in V; try discriminate; unfold value_word;
  try (match goal with |- context[match_word ?w ?d ?c ?hh ?i] =>
         destruct (match_word w d c hh i) as [hs' idx'] eqn:E; apply match_word_hs in E end);
  repeat match goal with
  | |- context[if ?b then _ else _] => destruct b eqn:?
  end; hsimp; rewrite ?S; cbn; auto;
  repeat match goal with |- context[match ?x with s_header_field => _ | _ => _ end] => rewrite S end; rewrite ?Hs;
  try (repeat split; auto; lia);
  try (match goal with H : _ \/ _ |- _ => destruct H as [->|[->| ->]]; cbn; rewrite ?Hs; repeat split; auto; lia end).
  repeat split; auto; apply u64_range.
Qed.

Lemma mu_le h l : (mu h l <= 6 * length (l_data l) + 4)%nat.
Proof. unfold mu, marks. destruct (l_data l); cbn [length]; [destruct (l_field l), (l_value l), (l_body l); lia|].
  destruct (l_re l); [destruct (h_state h)|]; lia. Qed.
Lemma mu_big h l : l_data l <> [] -> (6 * length (l_data l) < mu h l)%nat.
Proof. unfold mu. destruct (l_data l); [congruence|]. intros _. destruct (l_re l); [destruct (h_state h)|]; lia. Qed.
Lemma mu_less h l h' l' : (length (l_data l') < length (l_data l))%nat -> (mu h' l' < mu h l)%nat.
Proof.
  intros H. pose proof (mu_le h' l'). pose proof (mu_big h l). destruct (l_data l) eqn:E; [cbn in H; lia|].
  rewrite <- E in *. assert (l_data l <> []) by congruence. specialize (H1 H2). lia.
Qed.

Ltac bdestr := match goal with
  | |- context[if ?b then _ else _] => destruct b eqn:?
  end.

Lemma moved_isSome c m : isSome (moved c m) = isSome m.
Proof. destruct m; reflexivity. Qed.

Ltac jfin S :=
  hsimp; rewrite ?S, ?moved_isSome; cbn [isSome is_hf is_hv body_state mark re_state moved option_map]; auto; try discriminate; try congruence; try lia.



Definition Good (h : hparser) (l : locals) (res : jres) : Prop :=
  match res with
  | Next h' l' => JOk h' l' /\ (mu h' l' < mu h l)%nat
  | Call c h' l' er => JOk h' l' /\ (mu h' l' < mu h l)%nat
  | Ret h' er => h_errno h' <> HPE_OK /\ h_errno h' <> HPE_PAUSED
  | Assert => False
  end.

Lemma good_err h0 l0 e h l : e <> HPE_OK -> e <> HPE_PAUSED -> Good h0 l0 (err e h l).
Proof. cbn. auto. Qed.
Lemma adv_len l : l_data l <> [] -> (length (l_data (advance l)) < length (l_data l))%nat.
Proof. unfold advance. destruct (l_data l); [congruence|]. cbn. lia. Qed.

Lemma jok_adv h l : l_data l <> [] -> HOk h -> h_errno h = HPE_OK -> isSome (l_field l) = is_hf (h_state h) ->
  isSome (l_value l) = is_hv (h_state h) -> (isSome (l_body l) = true -> body_state (h_state h) = true) ->
  JOk h (advance l).
Proof.
  intros D A B C E F. unfold advance. destruct (l_data l) eqn:Q; [congruence|].
  constructor; cbn [l_data l_field l_value l_body l_re]; rewrite ?moved_isSome; auto. discriminate.
Qed.
Lemma good_brk h0 l0 h l : l_data l = l_data l0 -> l_data l <> [] -> HOk h -> h_errno h = HPE_OK ->
  isSome (l_field l) = is_hf (h_state h) ->
  isSome (l_value l) = is_hv (h_state h) -> (isSome (l_body l) = true -> body_state (h_state h) = true) ->
  Good h0 l0 (brk h l).
Proof.
  intros. cbn. split; [apply jok_adv; auto|]. apply mu_less. rewrite <- H. now apply adv_len.
Qed.
Lemma good_notify h0 l0 c h l : l_data l = l_data l0 -> l_data l <> [] -> HOk h -> h_errno h = HPE_OK ->
  isSome (l_field l) = is_hf (h_state h) ->
  isSome (l_value l) = is_hv (h_state h) -> (isSome (l_body l) = true -> body_state (h_state h) = true) ->
  Good h0 l0 (notify c h l).
Proof. apply good_brk. Qed.
Lemma good_call h0 l0 c h l er : Good h0 l0 (brk h l) -> Good h0 l0 (Call c h (advance l) er).
Proof. auto. Qed.
Lemma good_reexec h0 l0 h l : l_data l = l_data l0 -> l_data l <> [] -> HOk h -> h_errno h = HPE_OK ->
  re_state (h_state h) = true ->
  isSome (l_field l) = is_hf (h_state h) ->
  isSome (l_value l) = is_hv (h_state h) -> (isSome (l_body l) = true -> body_state (h_state h) = true) ->
  (mu h (again l) < mu h0 l0)%nat ->
  Good h0 l0 (reexec h l).
Proof. intros. cbn. split; [|assumption]. constructor; cbn [l_data l_field l_value l_body l_re again]; auto. Qed.

Lemma HOk_new_message h : HOk h -> HOk (hset_state (new_message h) h).
Proof. unfold HOk. hsimp. intros [A _]. split; auto. unfold new_message. destruct (should_keep_alive h); exact I. Qed.
Lemma new_message_state h : new_message h = s_start_res \/ new_message h = s_dead.
Proof. unfold new_message. destruct (should_keep_alive h); auto. Qed.

Lemma skipn_pos {A} (l : list A) n : (n < length l)%nat -> skipn n l <> [].
Proof. intros H E. apply (f_equal (@length A)) in E. rewrite skipn_length in E. cbn in E. lia. Qed.

Lemma jbyte_inv ch d h f v b re : let l := mkL (ch :: d) f v b re in
  JOk (hset_nread 0 h) l -> (h_state h = s_chunk_size_start -> h_nread h = 1) -> Good h l (jbyte ch h l).
Proof.
  intros l [Hh He Hf Hv Hb Hr] Hn. subst l. cbn [l_data l_field l_value l_body l_re] in *.
  unfold HOk in Hh. hsimp in *. destruct Hh as [Hc Hh].
  unfold jbyte.
  destruct (h_state h) eqn:S; cbn in Hf, Hv; destruct f, v; try discriminate;
    (destruct b as [b|]; [try (specialize (Hb eq_refl); discriminate)|]); clear Hb;
    (destruct re; [destruct (Hr eq_refl) as [_ Hre]; cbn in Hre; try discriminate|]); clear Hr;
    cbn [l_data l_field l_value l_body l_re].
  all: repeat match goal with |- Good _ _ (if ?x then _ else _) => destruct x eqn:? end.
  all: try (apply good_err; discriminate).
  all: try (apply good_brk; cbn [l_data l_field l_value l_body l_re]; hsimp; rewrite ?S; auto; try discriminate;
            unfold HOk; hsimp; rewrite ?S; split; auto; fail).
  all: try (apply good_notify; cbn [l_data l_field l_value l_body l_re]; hsimp; rewrite ?S; auto; try discriminate;
            unfold HOk; hsimp; rewrite ?S; unfold ULLONG_MAX; repeat split; auto; try lia; fail).
  all: try (apply good_notify; cbn [l_data l_field l_value l_body l_re]; hsimp; try discriminate; auto;
            [apply HOk_new_message; unfold HOk; hsimp; rewrite S; auto
            |destruct (new_message_state h) as [->| ->]; auto .. ]; fail).
  all: try (apply good_notify; cbn [l_data l_field l_value l_body l_re]; hsimp; try discriminate; auto;
            [apply HOk_new_message; unfold HOk; hsimp; rewrite S; auto
            |destruct (new_message_state (hset_nread 0 h)) as [->| ->]; auto .. ]; fail).
  all: try (apply good_reexec; cbn [l_data l_field l_value l_body l_re again]; hsimp; try discriminate; auto;
            [unfold HOk; hsimp; auto | unfold mu; cbn [l_data l_re again]; hsimp; rewrite ?S; lia ]; fail).
  all: try match goal with |- Good _ _ Assert => exfalso; try specialize (Hn eq_refl);
       repeat match goal with H : f_chunked _ = true /\ _ |- _ => destruct H | H : _ /\ f_chunked _ = true |- _ => destruct H end;
       repeat match goal with H : f_chunked _ = true |- _ => rewrite H in * end; cbn [negb orb] in *; try discriminate; lia end.
  all: try match goal with |- context[TOKEN ?x] => destruct (TOKEN x) as [c|] eqn:T end.
  all: repeat match goal with |- Good _ _ (if ?x then _ else _) => destruct x eqn:? end.
  all: try (apply good_err; discriminate).
  all: try (apply good_brk; cbn [l_data l_field l_value l_body l_re mark_field mark isSome]; hsimp; rewrite ?S; auto; try discriminate;
            unfold HOk; hsimp; split; auto; apply field_first_ok).
  all: try (unfold data_field; cbn [l_field]; apply good_call, good_brk; cbn [l_data l_field l_value l_body l_re no_field isSome]; hsimp; auto;
     try discriminate; unfold HOk; hsimp; split; auto; fail).
  all: try match goal with |- context[field_step ?hh ?ii ?cc] =>
    let hs := fresh in let i := fresh in let E := fresh in
    destruct (field_step_ok hh ii cc Hh) as (hs & i & E & ?); rewrite E;
    apply good_brk; cbn [l_data l_field l_value l_body l_re no_field isSome]; hsimp; rewrite ?S; auto; try discriminate;
    unfold HOk; hsimp; rewrite S; split; auto end.
  all: try match goal with |- context[value_first ?a ?b] =>
    let E := fresh in destruct (value_first a b) as [h2|] eqn:E; [|apply good_err; discriminate];
    apply value_first_ok in E as (E1 & E2 & E3); [|hsimp; auto ..]; hsimp in *;
    apply good_brk; cbn [l_data l_field l_value l_body l_re mark_value mark isSome]; rewrite ?E2, ?E3; auto; try discriminate end.
  all: try match goal with |- context[value_step ?a ?b] =>
    let E := fresh in let Q := fresh in assert (Q : HOk b) by (unfold HOk; match goal with S : _ = s_header_value |- _ => rewrite S end; auto);
    pose proof (value_step_ok a b Q ltac:(assumption)) as E; destruct (value_step a b) as [h2| |]; [|apply good_err; discriminate|destruct E];
    destruct E as (E1 & E2 & E3);
    apply good_brk; cbn [l_data l_field l_value l_body l_re mark_value mark isSome]; rewrite ?E2, ?E3; auto; try discriminate end.
  all: try match goal with |- context[header_flags ?a] =>
    let Q := fresh in assert (Q : HOk (header_flags a) /\ h_state (header_flags a) = s_header_value_lws /\ h_errno (header_flags a) = HPE_OK)
      by (unfold header_flags, HOk; hsimp; destruct (h_hs h); hsimp; auto);
    destruct Q as (Q1 & Q2 & Q3);
    apply good_brk; cbn [l_data l_field l_value l_body l_re mark_value mark isSome]; rewrite ?Q2, ?Q3; auto; try discriminate end.
  all: try (pose proof (u64_range (u64 (h_cl h * 16) + unhex ch));
            apply good_brk; cbn [l_data l_field l_value l_body l_re]; hsimp; rewrite ?S; auto; try discriminate;
            unfold HOk; hsimp; rewrite ?S; repeat split; try tauto; unfold ULLONG_MAX in *; lia).
  all: try (cbn [Good]; split; [constructor; cbn [l_data l_field l_value l_body l_re again no_value isSome]; hsimp; auto;
       [unfold HOk; hsimp; auto | intros _; split; [discriminate|reflexivity]]
       | unfold mu; cbn [l_data l_re again no_value]; hsimp; lia]; fail).
  all: try match goal with |- context[new_message ?a] => 
    cbn [Good]; split; [|apply mu_less; cbn; lia]; constructor; cbn [l_data l_field l_value l_body l_re isSome]; hsimp; auto; try discriminate;
    [apply HOk_new_message; unfold HOk; hsimp; rewrite S; auto | destruct (new_message_state a) as [->| ->]; auto ..] end.
  all: unfold data_value, data_body; cbn [l_value l_body].
  all: try (apply good_call, good_brk; cbn [l_data l_field l_value l_body l_re no_value no_body mark_value mark isSome]; hsimp; auto;
     try discriminate; unfold HOk; hsimp; repeat split; tauto).
  all: try (pose proof (unhex_range ch); apply good_brk; cbn [l_data l_field l_value l_body l_re isSome]; hsimp; rewrite ?S; auto; try discriminate;
     unfold HOk; hsimp; repeat split; try tauto; unfold ULLONG_MAX in *; lia).
  all: try (cbn [Good]; split; [constructor; cbn [l_data l_field l_value l_body l_re isSome]; hsimp; rewrite ?S; auto; try discriminate;
      unfold HOk; rewrite S; auto | apply mu_less; cbn; lia]; fail).
  all: try (apply good_brk; cbn [l_data l_field l_value l_body l_re isSome]; hsimp; rewrite ?S; auto; try discriminate;
     unfold HOk; hsimp in *; repeat split; try tauto; unfold ULLONG_MAX in *; lia).
  all: assert (Hk : 1 <= Z.min (h_cl h) (blen (ch :: d)) <= blen (ch :: d)) by (rewrite blen_cons; pose proof (blen_nonneg d); lia);
    set (k := Z.min (h_cl h) (blen (ch :: d))) in *;
    assert (Hkc : k <= h_cl h) by (subst k; lia);
    clearbody k.
  all: cbn [Good]; split.
  all: try (apply mu_less; cbn [l_data]; rewrite ?skipn_length; unfold blen in *; cbn [length] in *; lia).
  all: try match goal with |- (mu _ _ < mu _ _)%nat => unfold mu; cbn [l_data l_re]; hsimp;
     match goal with |- context[skipn ?n ?l] => pose proof (skipn_length n l); pose proof (skipn_pos l n);
        destruct (skipn n l) end; unfold blen in *; cbn [length] in *; lia end.
  all: constructor; cbn [l_data l_field l_value l_body l_re isSome]; hsimp; rewrite ?S; auto; try discriminate.
  all: try (intros _; split; [apply skipn_pos; unfold blen in *; cbn [length] in *; lia|reflexivity]).
  all: repeat match goal with |- context[if ?x then _ else _] => destruct x eqn:?; hsimp; rewrite ?S; auto end.
  all: unfold HOk; hsimp; rewrite ?S; repeat split; try tauto; hsimp in *; try lia.
Qed.

Lemma jstep_inv h l : JOk h l -> l_data l <> [] -> Good h l (jstep h l).
Proof.
  intros J D. unfold jstep. destruct l as [d f v b re]; cbn [l_data l_field l_value l_body l_re] in *.
  destruct d as [|ch d]; [congruence|].
  assert (JN : forall n, JOk (hset_nread n h) (mkL (ch :: d) f v b re) \/ h_state h = s_chunk_size_start).
  { intros n. destruct J as [Hh He Hf Hv Hb Hr]. unfold HOk in Hh.
    destruct (h_state h) eqn:S; auto; left; constructor; unfold HOk; hsimp; rewrite ?S; auto. }
  assert (J0 : JOk (hset_nread 0 h) (mkL (ch :: d) f v b re)).
  { destruct J as [Hh He Hf Hv Hb Hr]. unfold HOk in Hh.
    constructor; unfold HOk; hsimp; auto. destruct (h_state h) eqn:S; auto. tauto. }
  assert (N : h_state h = s_chunk_size_start -> h_nread h = 0).
  { intros S. destruct J as [[_ Hh] _ _ _ _ _]. rewrite S in Hh. tauto. }
  destruct re.
  - apply jbyte_inv; auto. intros S. destruct (jo_re _ _ J eq_refl) as [_ R]. rewrite S in R. discriminate.
  - destruct (parsing_header (h_state h)) eqn:P.
    + destruct (HTTP_MAX_HEADER_SIZE <? _) eqn:Ov; [apply good_err; discriminate|].
      assert (G : Good (hset_nread (h_nread h + 1) h) (mkL (ch :: d) f v b false)
                  (jbyte ch (hset_nread (h_nread h + 1) h) (mkL (ch :: d) f v b false))).
      { apply jbyte_inv; hsimp; auto. intros S. rewrite (N S). reflexivity. }
      exact G.
    + apply jbyte_inv; auto. intros S. rewrite S in P. discriminate.
Qed.

