(** PROPERTY C70: a server cannot make a client wait for the end of the headers for ever. *)
From Verif Require Import Bytes TextSpec ByteHelpers Joyent RespParser RespSpec RespInv RespSplit RespFeed RespBody RespWhole RespSize RespBound.
From Verif Require Import Client ClientSpec ClientInv ClientSim ClientRecv ClientBad PropsClient PropsClient2 PropsClient4.
Open Scope Z_scope.

(** ** Specification *)
(** an empty line, as the parser accepts line ends: LF, or CR LF *)
Definition has_empty_line (s : bytes) : Prop := exists a b, s = a ++ [LF; LF] ++ b \/ s = a ++ [LF; CR; LF] ++ b.
(** nothing but messageBegin() was reported between r and r' *)
Definition only_begun (r r' : rparser) : Prop := exists lg, r_log r' = r_log r ++ lg /\ Forall (fun e => e = RBegin) lg.

(** ** Proofs *)
Transparent HTTP_MAX_HEADER_SIZE.
Lemma max_head_M : HTTP_MAX_HEADER_SIZE = max_head.
Proof. reflexivity. Qed.
Opaque HTTP_MAX_HEADER_SIZE.
Lemma ready_nr r : ready r -> NR (r_h r) /\ pot (r_h r) <= max_head /\ hasError r = false.
Proof.
  intros R. pose proof (rd_n _ R) as N. pose proof max_head_M as E. unfold max_head in E. split; [unfold NR; lia|]. split; [unfold pot; rewrite (rd_s _ R); unfold max_head; lia|].
  unfold hasError. now rewrite (rd_e _ R).
Qed.
Lemma only_log r r' lg : r_log r' = r_log r ++ lg -> only_begun r r' -> silent lg.
Proof. intros E (l2 & E2 & S). rewrite E in E2. apply app_inv_head in E2. now subst. Qed.
Lemma ready_bound r segs r' : ready r -> Feed r segs r' -> hasError r' = false -> only_begun r r' -> blen (concat segs) <= max_head.
Proof.
  intros R F E O. destruct (ready_nr _ R) as (N & P & Er). destruct (Feed_pot _ _ _ F (rd_u _ R) Er N E) as (N2 & lg & L & S).
  specialize (S (only_log _ _ _ L O)). pose proof (pot_pos _ N2). lia.
Qed.
Lemma ready_silent r segs r' : ready r -> ~ has_empty_line (concat segs) -> Feed r segs r' -> hasError r' = false -> only_begun r r'.
Proof.
  intros R NB F E. destruct (ready_nr _ R) as (_ & _ & Er). apply (Feed_head _ _ _ F []); auto; [apply (rd_u _ R)|].
  split; [unfold in_head; now rewrite (rd_s _ R)|unfold endings; now rewrite (rd_s _ R)].
Qed.

(** ** C70 *)
(** While it waits for the headers of a response the parser takes at most 80 KB, however they arrive. *)
Theorem C70_head : forall r segs r', waiting r -> Feed r segs r' -> hasError r' = false -> only_begun r r' ->
  blen (concat segs) <= max_head.
Proof. intros r segs r' W. apply ready_bound. now apply waiting_ready. Qed.
(** So more than that without an empty line is an error. *)
Theorem C70_endless_head : forall r segs r', waiting r -> ~ has_empty_line (concat segs) -> max_head < blen (concat segs) ->
  Feed r segs r' -> hasError r' = true.
Proof.
  intros r segs r' W NB L F. destruct (hasError r') eqn:E; [reflexivity|]. pose proof (waiting_ready _ W) as R.
  pose proof (ready_bound _ _ _ R F E (ready_silent _ _ _ R NB F E)). lia.
Qed.
(** Without an empty line nothing is reported. *)
Theorem C70_no_empty_line : forall r segs r', waiting r -> ~ has_empty_line (concat segs) -> Feed r segs r' -> hasError r' = false -> only_begun r r'.
Proof. intros r segs r' W. apply ready_silent. now apply waiting_ready. Qed.
(** In any state at all: at most 160 KB and two bytes without a report (the last chunk's size line, and a trailer). *)
Theorem C70_always : forall r segs r', usable r -> hasError r = false -> Feed r segs r' -> hasError r' = false -> only_begun r r' ->
  blen (concat segs) <= 2 * max_head + 2.
Proof.
  intros r segs r' Us Er F E O. pose proof (usable_nr _ Us Er) as N. destruct (Feed_pot _ _ _ F (usable_ok _ Us) Er N E) as (N2 & lg & L & S).
  specialize (S (only_log _ _ _ L O)). pose proof (pot_pos _ N2). pose proof (pot_max _ N). pose proof max_head_M. unfold max_head in *. lia.
Qed.

Section Client.
  Variables (zlib : bool) (gunzip : list bytes -> bytes -> bytes) (parse_url : bytes -> url).
  Notation step := (cstep zlib gunzip parse_url).
  Notation run := (crun zlib gunzip parse_url).
  (** A client that gets more than 80 KB without an empty line ends the request, with ResponseInvalidError and never otherwise. *)
  Theorem C70_client c s l F :
    Waits DConnected c -> ~ has_empty_line s -> max_head < blen s ->
    receiving_run step (CRun c []) l -> arrived l ++ F = s ->
    exists c' stk obs, run (CRun c []) l = CRun c' stk /\ c_log c' = c_log c ++ obs /\
      ((c_pending c' = true /\ existsb ends obs = false /\ (stk = [] -> c_in c' = [] -> F <> [])) \/
       (c_pending c' = false /\ exists obs' code hs b, obs = obs' ++ [CFinished ResponseInvalidError code hs b] /\ existsb ends obs' = false)).
  Proof.
    intros Wt NB L Q EF. pose proof (waits_ready _ _ Wt) as Rd. assert (NE : s <> []) by (intros ->; vm_compute in L; discriminate).
    destruct (inject_total (c_p c) s (rd_u _ Rd) NE) as (r1 & n & I & U1 & Le).
    assert (HE : hasError r1 = true).
    { destruct (hasError r1) eqn:E; [reflexivity|]. exfalso. destruct (ready_nr _ Rd) as (_ & _ & Er).
      assert (HH : Headed (r_h (c_p c)) [] []) by (split; [unfold in_head; now rewrite (rd_s _ Rd)|unfold endings; now rewrite (rd_s _ Rd)]).
      destruct (inject_head _ _ _ _ [] (rd_u _ Rd) Er HH NE NB I E) as (-> & S & _).
      assert (F1 : Feed (c_p c) [s] r1).
      { eapply Feed_more; eauto. unfold blen. rewrite Nat2Z.id, skipn_all. apply Feed_next, Feed_end. }
      pose proof (ready_bound _ _ _ Rd F1 E S) as B. cbn [concat] in B. rewrite app_nil_r in B. lia. }
    exact (invalid_any zlib gunzip parse_url c s r1 n l F Wt (or_intror NB) NE I HE Q EF).
  Qed.
End Client.

(** ** Concrete cases: both bounds are attained *)
Lemma one_line s : forallb (fun c => negb (Ascii.eqb c LF)) s = true -> ~ has_empty_line s.
Proof.
  intros H (a & b & E). assert (X : In LF s) by (destruct E as [-> | ->]; apply in_or_app; right; now left).
  rewrite forallb_forall in H. specialize (H _ X). rewrite Ascii.eqb_refl in H. discriminate.
Qed.
Definition long_line (n : Z) : bytes := lit "HTTP/1.1 200 " ++ repeat "a"%char (Z.to_nat n).
Theorem C70_case : waiting rfresh /\ ~ has_empty_line (long_line 81908) /\ max_head < blen (long_line 81908) /\
  (exists r, Feed rfresh [long_line 81907] r /\ hasError r = false /\ only_begun rfresh r /\ blen (concat [long_line 81907]) = max_head) /\
  (exists r, Feed rfresh [long_line 81908] r /\ hasError r = true).
Proof.
  split; [constructor|]. split; [apply one_line; vm_compute; reflexivity|]. split; [vm_compute; reflexivity|].
  assert (I1 : exists r n, inject rfresh (long_line 81907) = Some (r, n) /\ hasError r = false /\ r_log r = [RBegin] /\ n = blen (long_line 81907)).
  { assert (X : match inject rfresh (long_line 81907) with Some (r, n) => (hasError r, r_log r, n =? blen (long_line 81907)) | None => (true, [], false) end = (false, [RBegin], true)) by (vm_compute; reflexivity).
    destruct (inject rfresh (long_line 81907)) as [[r n]|]; [|discriminate]. injection X as X1 X2 X3. exists r, n. apply Z.eqb_eq in X3. auto. }
  assert (I2 : exists r n, inject rfresh (long_line 81908) = Some (r, n) /\ hasError r = true).
  { assert (X : match inject rfresh (long_line 81908) with Some (r, n) => hasError r | None => false end = true) by (vm_compute; reflexivity).
    destruct (inject rfresh (long_line 81908)) as [[r n]|]; [|discriminate]. eauto. }
  split.
  - destruct I1 as (r & n & I & E & L & En). exists r. split; [eapply Feed_more; eauto; [discriminate|]|].
    + rewrite En. unfold blen. rewrite Nat2Z.id, skipn_all. apply Feed_next, Feed_end.
    + split; [exact E|]. split; [exists [RBegin]; split; [rewrite L; reflexivity|repeat constructor]|]. cbn [concat]. rewrite app_nil_r. vm_compute. reflexivity.
  - destruct I2 as (r & n & I & E). exists r. split; [|exact E]. eapply Feed_err; eauto. discriminate.
Qed.
