(** C46: the response parser and the segmentation of its input. *)
From Verif Require Import Bytes ByteHelpers Helpers Joyent RespParser RespInv RespSplit RespSpec RespFeed.
Open Scope Z_scope.

(** Whatever state its public functions left the parser in, and whatever the bytes: giving them cut in any two ways
    both come to an end (no assert() fails), with one result each; the status code and the error are the same; if
    there is no error the whole state, and all that was reported, is the same; if there is one, the same was
    reported before it, except that one of the two may have reported more content bytes at the end. *)
Theorem C46_same_for_every_split r segs1 segs2 : usable r -> concat segs1 = concat segs2 ->
  exists a b, (forall x, Feed r segs1 x <-> x = a) /\ (forall x, Feed r segs2 x <-> x = b) /\
    statusCode a = statusCode b /\ h_errno (r_h a) = h_errno (r_h b) /\
    (hasError a = false -> a = b) /\
    exists x, (r_log b = r_log a ++ map RByte x /\ r_content b = r_content a ++ x) \/
              (r_log a = r_log b ++ map RByte x /\ r_content a = r_content b ++ x).
Proof.
  intros Us E. pose proof (usable_ok _ Us) as U.
  destruct (Feed_total _ segs1 r (le_n _) U) as (a & Fa & Ua).
  destruct (Feed_total _ segs2 r (le_n _) U) as (b & Fb & Ub).
  exists a, b. split; [intros x; split; [intros F; now apply (Feed_det _ _ _ F)|intros ->; auto]|].
  split; [intros x; split; [intros F; now apply (Feed_det _ _ _ F)|intros ->; auto]|].
  destruct (Feed_refine _ _ _ U Fa) as (c & Fc & _ & Ra). destruct (Feed_refine _ _ _ U Fb) as (d & Fd & _ & Rb).
  rewrite E in Fc. rewrite (Feed_det _ _ _ Fd _ Fc) in Rb.
  destruct Ra as (A1 & _ & A3 & x & A4 & A5), Rb as (B1 & _ & B3 & y & B4 & B5).
  assert (H : r_h a = r_h b) by congruence. unfold statusCode. rewrite H. repeat split.
  - intros N. assert (h_errno (r_h a) = HPE_OK) by (apply UOk_ok; auto). rewrite A3, B3; auto; left; congruence.
  - rewrite A4 in B4. rewrite A5 in B5.
    assert (L : (exists z, y = z ++ x) \/ (exists z, x = z ++ y)).
    {
      clear -B4. revert B4. generalize (r_content a) (r_content b). intros p q HQ.
      assert (Len := f_equal (@length _) HQ). rewrite !app_length in Len.
      destruct (le_lt_dec (length x) (length y)).
      - left. exists (firstn (length y - length x) y).
        assert (T := f_equal (skipn (length p)) HQ). rewrite skipn_app, skipn_all, Nat.sub_diag in T. cbn in T.
        replace (length p) with (length q + (length y - length x))%nat in T by lia.
        rewrite skipn_app_over in T. rewrite T at 2. symmetry. apply firstn_skipn.
      - right. exists (firstn (length x - length y) x). symmetry in HQ.
        assert (T := f_equal (skipn (length q)) HQ). rewrite skipn_app, skipn_all, Nat.sub_diag in T. cbn in T.
        replace (length q) with (length p + (length x - length y))%nat in T by lia.
        rewrite skipn_app_over in T. rewrite T at 2. symmetry. apply firstn_skipn. }
    destruct L as [[z ->]|[z ->]]; exists z; rewrite !map_app, !app_assoc in *; [right|left].
    + apply app_inv_tail in B4. apply app_inv_tail in B5. auto.
    + apply app_inv_tail in B4. apply app_inv_tail in B5. auto.
Qed.

(** a response and a half, cut into bytes or not *)
Definition c46_stream : bytes := lit "HTTP/1.1 200 OK" ++ CRLF ++ lit "Content-Length: 3" ++ CRLF ++ CRLF ++ lit "abcHTTP/1.1 404 ".
Lemma C46_applies : exists a, Feed rfresh [c46_stream] a /\ Feed rfresh (singles c46_stream) a /\ hasError a = false /\
  r_log a = [RBegin; RHeaders 1 1 200 [(lit "Content-Length", lit "3")]; RByte "a"; RByte "b"; RByte "c"; RComplete; RBegin].
Proof.
  destruct (C46_same_for_every_split rfresh [c46_stream] (singles c46_stream)) as (a & b & Fa & Fb & _ & _ & E & _).
  { constructor. } { now rewrite concat_singles. }
  assert (F : Feed rfresh [c46_stream] a) by now apply Fa.
  assert (H : exists x, Feed rfresh [c46_stream] x /\ hasError x = false /\ r_log x =
    [RBegin; RHeaders 1 1 200 [(lit "Content-Length", lit "3")]; RByte "a"; RByte "b"; RByte "c"; RComplete; RBegin]).
  { eexists. split.
    - eapply Feed_more; [discriminate|vm_compute; reflexivity|reflexivity|].
      eapply Feed_more; [discriminate|vm_compute; reflexivity|reflexivity|].
      apply Feed_next. apply Feed_end.
    - vm_compute. auto. }
  destruct H as (x & Fx & N & L). rewrite (Feed_det _ _ _ Fx _ F) in *. exists a. repeat split; auto.
  apply Fb. auto.
Qed.

(** The full claim also speaks of streams on which the parser stops with an error.  There, the content and the
    headers do depend on the cuts. *)
Definition bad_chunk (last : bytes) : list bytes :=
  [lit "HTTP/1.1 200 OK" ++ CRLF ++ lit "Transfer-Encoding: chunked" ++ CRLF ++ CRLF ++ lit "3" ++ CRLF ++ lit "abc" ++ last].
Theorem C46_content_after_error_refuted : exists segs1 segs2 a b,
  concat segs1 = concat segs2 /\ Feed rfresh segs1 a /\ Feed rfresh segs2 b /\ hasError a = true /\
  r_content a = lit "abc" /\ r_content b = [].
Proof.
  exists (bad_chunk [] ++ [lit "X"]), (bad_chunk (lit "X")).
  eexists _, _. split; [reflexivity|].
  split; [eapply Feed_more; [discriminate|vm_compute; reflexivity|reflexivity|];
          apply Feed_next; eapply Feed_err; [discriminate|vm_compute; reflexivity|reflexivity]|].
  split; [eapply Feed_err; [discriminate|vm_compute; reflexivity|reflexivity]|].
  vm_compute. auto.
Qed.
Theorem C46_headers_after_error_refuted : exists segs1 segs2 a b,
  concat segs1 = concat segs2 /\ Feed rfresh segs1 a /\ Feed rfresh segs2 b /\ hasError a = true /\
  r_headers a = [(lit "A", lit "b")] /\ r_headers b = [].
Proof.
  set (one := lit "HTTP/1.1 200 OK" ++ CRLF ++ lit "A: b" ++ CRLF ++ lit "C").
  exists [one; lit "@"], [one ++ lit "@"].
  eexists _, _. split; [reflexivity|].
  split; [eapply Feed_more; [discriminate|vm_compute; reflexivity|reflexivity|];
          apply Feed_next; eapply Feed_err; [discriminate|vm_compute; reflexivity|reflexivity]|].
  split; [eapply Feed_err; [discriminate|vm_compute; reflexivity|reflexivity]|].
  vm_compute. auto.
Qed.

(** An inject() of no bytes is not neutral: the parser takes it for the end of the stream.  The same response, whole or
    with an empty inject() after its status line: with no error in one case, an error and no headers in the other. *)
Fixpoint inject_all (r : rparser) (segs : list bytes) {struct segs} : option rparser :=
  match segs with
  | [] => Some r
  | s :: t => match inject r s with Some (r', _) => inject_all r' t | None => None end
  end.
Definition c46_line : bytes := lit "HTTP/1.1 204 OK" ++ CRLF.
Definition c46_more : bytes := lit "A: b" ++ CRLF ++ CRLF.
Theorem C46_empty_refuted : exists a b,
  inject_all rfresh [c46_line; c46_more] = Some a /\ inject_all rfresh [c46_line; []; c46_more] = Some b /\
  hasError a = false /\ r_log a = [RBegin; RHeaders 1 1 204 [(lit "A", lit "b")]; RComplete] /\
  hasError b = true /\ r_log b = [RBegin].
Proof. eexists _, _. split; [vm_compute; reflexivity|]. split; [vm_compute; reflexivity|]. vm_compute. auto. Qed.
