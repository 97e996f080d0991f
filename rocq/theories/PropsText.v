(** PROPERTIES C25-C34: parameters, percent decoding, comparisons, numbers, headers, status, dates, mime.
    Model: ByteHelpers.v, Helpers.v, Params.v.  Specification: TextSpec.v. *)
From Verif Require Import Bytes ByteHelpers Helpers Params TextSpec HelpersProofs ParamsProofs.
Open Scope Z_scope.

(** ** C25: requestParams() on a request whose parameters were not modified: the pieces of the query string,
    in order, each split at its first '=', both halves percent-decoded. [utf8] is QString::fromUtf8. *)
Theorem C25_request_params : forall (utf8 : bytes -> qstring) (query : bytes),
  exists params pieces,
    requestParams utf8 (mkPS query []) = Some (mkPS query params, params) /\
    Pieces query pieces /\
    Forall2 (fun piece p => exists k v, KeyValue piece k v /\ Text_of utf8 k (fst p) /\ Text_of utf8 v (snd p))
      pieces params.
Proof. exact requestParams_fresh. Qed.

(** asking again does not parse again nor change anything *)
Theorem C25_request_params_stable : forall utf8 query ps0 s ps,
  requestParams utf8 (mkPS query ps0) = Some (s, ps) -> requestParams utf8 s = Some (s, ps).
Proof. exact requestParams_again. Qed.

Example C25_case : requestParams (map byte_val) (mkPS (lit "a=1&b&&c=%41=2&") []) =
  let q s := map byte_val (lit s) in
  let ps := [(q "a", q "1"); (q "b", []); ([], []); (q "c", q "A=2")]%string in
  Some (mkPS (lit "a=1&b&&c=%41=2&") ps, ps).
Proof. vm_compute. reflexivity. Qed.

(** ** C26: lookup and update. [fold] is the case folding of QString::compare(Qt::CaseInsensitive). *)
Theorem C26_lookup_first : forall fold name pre p post,
  fold (fst p) = fold name -> (forall x, In x pre -> fold (fst x) <> fold name) ->
  lookup_param fold name (pre ++ p :: post) = snd p.
Proof. exact lookup_first. Qed.
Theorem C26_lookup_none : forall fold name ps,
  (forall x, In x ps -> fold (fst x) <> fold name) -> lookup_param fold name ps = [].
Proof. exact lookup_none. Qed.

(** After setRequestParam(name, v): requestParamValue(name) = v; either exactly the first matching entry was
    replaced in place, or there was none and one entry was added at the end. *)
Theorem C26_set_then_get : forall utf8 fold s s1 ps name v,
  requestParams utf8 s = Some (s1, ps) ->
  exists s2, setRequestParam utf8 fold s name v = Some s2 /\
    requestParamValue utf8 fold s2 name = Some (s2, v) /\
    ((exists pre p post, ps = pre ++ p :: post /\ fold (fst p) = fold name /\
        p_params s2 = pre ++ (name, v) :: post) \/
     ((forall x, In x ps -> fold (fst x) <> fold name) /\ p_params s2 = ps ++ [(name, v)])).
Proof.
  intros utf8 fold s s1 ps name v E. unfold setRequestParam. rewrite E. eexists. split; [reflexivity|].
  cbn [p_params p_query]. unfold requestParamValue, requestParams. cbn [p_params p_query].
  destruct (first_match fold name ps) as [N|(pre & p & post & -> & M & N)].
  - rewrite update_miss by auto. split.
    + destruct (ps ++ [(name, v)]) as [|x l] eqn:Q; [destruct ps; discriminate|]. rewrite <- Q.
      do 2 f_equal. exact (lookup_first fold name ps (name, v) [] eq_refl N).
    + right. auto.
  - rewrite (update_hit fold name v pre p post) by auto. split.
    + destruct (pre ++ (name, v) :: post) as [|x l] eqn:Q; [destruct pre; discriminate|]. rewrite <- Q.
      do 2 f_equal. exact (lookup_first fold name pre (name, v) post eq_refl N).
    + left. eauto 10.
Qed.

Example C26_case : lookup_param (map (fun z => if (65 <=? z) && (z <=? 90) then z + 32 else z))
    (map byte_val (lit "ID")) [(map byte_val (lit "x"), [1]); (map byte_val (lit "id"), [2]); (map byte_val (lit "Id"), [3])] = [2].
Proof. reflexivity. Qed.

(** ** C27: percent decoding *)

(** it never reads or writes outside of the buffer (the model's None), for any input *)
Theorem C27_memory_safe : forall s, exists t, percentDecode_bytes s = Some t /\ (length t <= length s)%nat.
Proof. intros s. rewrite percentDecode_pdec. eexists. split; [reflexivity|]. apply pdec_length. Qed.

(** on text where every '%' starts an escape, each %hh becomes its byte and nothing else changes *)
Theorem C27_decode : forall s t, PDecode s t -> percentDecode_bytes s = Some t.
Proof. intros s t H. rewrite percentDecode_pdec. f_equal. now apply pdec_spec. Qed.

(** decoding undoes encoding, for every byte string and every choice of bytes left plain *)
Theorem C27_roundtrip : forall keep s, keep "%"%char = false -> percentDecode_bytes (pencode keep s) = Some s.
Proof. intros keep s K. apply C27_decode. now apply pencode_decodes. Qed.

(** the behaviour on all inputs, including malformed escapes *)
Theorem C27_total : forall s, exists t, percentDecode_bytes s = Some t /\ PDecodeAny s t.
Proof. intros s. rewrite percentDecode_pdec. eexists. split; [reflexivity|]. apply pdec_any. reflexivity. Qed.

(** "leaves every other byte alone" fails for malformed escapes: "%zz" becomes one NUL byte *)
Theorem C27_malformed_refuted : exists s, ~ In NUL s /\
  (forall a b x y, s = x ++ "%"%char :: a :: b :: y -> is_xdigit a = false \/ is_xdigit b = false) /\
  percentDecode_bytes s <> Some s.
Proof.
  exists (lit "%zz"). split; [cbn; intuition discriminate|]. split; [|vm_compute; discriminate].
  intros a b x y E. destruct x as [|x0 [|x1 [|x2 x]]]; cbn in E; try discriminate.
  - injection E as <- <- <-. left. reflexivity.
  - destruct x; discriminate.
Qed.

Example C27_case : percentDecode_bytes (lit "/a%20b%2Fc") = Some (lit "/a b/c") /\
  PDecode (lit "/a%20b") (lit "/a b").
Proof.
  split; [vm_compute; reflexivity|]. change (lit "/a b") with ("/"%char :: "a"%char :: hexbyte "2" "0" :: ["b"%char]).
  repeat (constructor; try reflexivity; try discriminate).
Qed.

(** ** C28: case-insensitive comparison *)
Theorem C28_ascii_ci : forall a b, asciiEqualsCI a b = true <-> lower a = lower b.
Proof. exact asciiEqualsCI_iff. Qed.
Theorem C28_lowercase_token : forall a t, lower t = t -> asciiEqualsCI_lower a t = asciiEqualsCI a t.
Proof. exact asciiEqualsCI_lower_agrees. Qed.
Example C28_case : asciiEqualsCI (lit "Content-LENGTH") (lit "content-length") = true /\
  asciiEqualsCI (lit "[") (lit "{") = false /\ lower (lit "keep-alive") = lit "keep-alive".
Proof. vm_compute. auto. Qed.

(** ** C29: number formatting *)
Theorem C29_numbers : forall base n, 2 <= base <= 16 -> INT_MIN < n <= INT_MAX ->
  exists s, appendNumber base n = Some s /\ Canonical base s n.
Proof. exact appendNumber_ok. Qed.
(** a canonical numeral reads back as one number only *)
Theorem C29_readback : forall base s n m, 0 <= base -> Canonical base s n -> Canonical base s m -> n = m.
Proof. exact Canonical_inj. Qed.
(** the excluded value: negating INT_MIN is undefined behaviour *)
Theorem C29_int_min_refuted : exists n, INT_MIN <= n <= INT_MAX /\ appendNumber 10 n = None.
Proof. exists INT_MIN. vm_compute. intuition discriminate. Qed.
Example C29_case : appendNumber 10 (-1203) = Some (lit "-1203") /\ appendNumber 16 48879 = Some (lit "beef")
  /\ appendNumber 10 0 = Some (lit "0") /\ appendNumber 10 INT_MAX = Some (lit "2147483647").
Proof. vm_compute. auto. Qed.

(** ** C30: header lookup *)
Theorem C30_first_value : forall hs name pre f v post,
  hs = pre ++ (f, v) :: post -> lower f = lower name ->
  (forall h, In h pre -> lower (fst h) <> lower name) -> getFieldValue hs name = v.
Proof. intros. unfold getFieldValue. erewrite find_field_first; eauto. reflexivity. Qed.
Theorem C30_absent : forall hs name, (forall h, In h hs -> lower (fst h) <> lower name) -> getFieldValue hs name = [].
Proof. intros. unfold getFieldValue. rewrite find_field_none; auto. Qed.
Theorem C30_token_lookup : forall hs tok, lower tok = tok -> getFieldValue_tok hs tok = getFieldValue hs tok.
Proof. intros. unfold getFieldValue_tok, getFieldValue. now rewrite find_field_tok. Qed.
Theorem C30_all_values : forall hs name,
  getFieldValues hs name = map snd (filter (fun h => beqb (lower (fst h)) (lower name)) hs).
Proof. exact getFieldValues_spec. Qed.
Theorem C30_test : forall hs name value, testFieldValue hs name value = true <->
  exists f v, In (f, v) hs /\ lower f = lower name /\ lower v = lower value.
Proof. exact testFieldValue_iff. Qed.
Example C30_case : getFieldValue [(lit "A", lit "1"); (lit "host", lit "x"); (lit "HOST", lit "y")] (lit "Host") = lit "x".
Proof. reflexivity. Qed.

(** C57: appending a collection to another one is concatenation; appending it to itself is not *)
Theorem C57_append : forall hs l, header_append false hs l = Some (hs ++ l).
Proof. reflexivity. Qed.
Theorem C57_self_append_refuted : exists hs, header_append true hs hs <> Some (hs ++ hs).
Proof. exists [(lit "A", lit "1")]. discriminate. Qed.

(** ** C31: raw header lines: field before the first colon, value after it without leading spaces *)
Theorem C31_raw_header : forall f n v, ~ In ":"%char f -> (forall t, v <> " "%char :: t) ->
  setFromRawHeader (f ++ lit ":" ++ repeat " "%char n ++ v) = (f, v).
Proof. exact setFromRawHeader_ok. Qed.
Theorem C31_no_colon : forall raw, ~ In ":"%char raw -> setFromRawHeader raw = (raw, []).
Proof. exact setFromRawHeader_nocolon. Qed.
(** the text of a header, as written in a response, parses back to the header *)
Theorem C31_roundtrip : forall f v, ~ In ":"%char f -> (forall t, v <> " "%char :: t) ->
  exists raw, header_line (f, v) = raw ++ CRLF /\ setFromRawHeader raw = (f, v).
Proof.
  intros f v Nf Nv. exists (f ++ lit ":" ++ repeat " "%char 1 ++ v). split.
  - unfold header_line. cbn [fst snd]. rewrite <- !app_assoc. reflexivity.
  - now apply setFromRawHeader_ok.
Qed.
(** trailing blanks and tabs are not removed *)
Theorem C31_surrounding_blanks_refuted : exists raw, setFromRawHeader raw = (lit "A", lit "b ") /\ raw = lit "A: b ".
Proof. exists (lit "A: b "). split; reflexivity. Qed.
Example C31_case : setFromRawHeader (lit "Some-Field:   a: b") = (lit "Some-Field", lit "a: b").
Proof. reflexivity. Qed.

(** ** C32: status table *)
Theorem C32_status_table : forall code text, statusCodeAndMessage code = Some text <->
  exists msg, In (code, msg) std_status /\ text = status_text code (lit msg).
Proof.
  intros code text. rewrite status_spec. unfold assocZ.
  destruct (find (fun p => fst p =? code) std_status) as [[c m]|] eqn:F.
  - apply find_some in F. cbn [fst snd] in *. destruct F as [I E]. apply Z.eqb_eq in E. subst c.
    split; [intros [= <-]; eauto|]. intros (msg & I' & ->). f_equal. f_equal. f_equal.
    assert (ND : NoDup (map fst std_status)) by (unfold std_status; cbn [map fst]; repeat constructor; cbn; intuition discriminate).
    clear - I I' ND. induction std_status as [|[c0 m0] l IH]; [destruct I|]. cbn [map] in ND. inversion ND; subst.
    destruct I as [[= -> ->]|I], I' as [[= ->]|I']; auto.
    + exfalso. apply H1. apply in_map_iff. exists (code, msg). auto.
    + exfalso. apply H1. subst. apply in_map_iff. exists (code, m). auto.
  - split; [discriminate|]. intros (msg & I & _). pose proof (find_none _ _ F _ I) as Q. cbn in Q.
    rewrite Z.eqb_refl in Q. discriminate.
Qed.
Theorem C32_message : forall code text, statusCodeAndMessage code = Some text ->
  100 <= code <= 599 /\ exists msg, msg <> [] /\ text = status_text code msg /\ statusMessage code = Some msg.
Proof.
  intros code text H. pose proof H as H'. apply C32_status_table in H. destruct H as (m & I & ->).
  pose proof std_status_facts as F. rewrite forallb_forall in F. specialize (F _ I). cbn [fst snd] in F.
  rewrite !andb_true_iff, !Z.leb_le, negb_true_iff, Nat.eqb_neq in F. split; [lia|].
  exists (lit m). split; [destruct m; [cbn in F; lia|discriminate]|]. split; [reflexivity|].
  unfold statusMessage. rewrite H'. reflexivity.
Qed.
Example C32_case : statusCodeAndMessage 404 = Some (lit "404 Not Found") /\ statusMessage 404 = Some (lit "Not Found")
  /\ statusCodeAndMessage 418 = None.
Proof. vm_compute. auto. Qed.

(** ** C33: dates. valid_dt: the ranges of a valid QDateTime in UTC; years of four digits. *)
Theorem C33_http_date : forall d, valid_dt d -> 1000 <= d_year d <= 9999 ->
  httpDate d = Some (rfc1123 (d_dow d) (d_day d) (d_month d) (d_year d) (t_hour d) (t_min d) (t_sec d)).
Proof. exact httpDate_ok. Qed.
Theorem C33_injective : forall d d' t, valid_dt d -> valid_dt d' ->
  1000 <= d_year d <= 9999 -> 1000 <= d_year d' <= 9999 ->
  httpDate d = Some t -> httpDate d' = Some t ->
  d_day d = d_day d' /\ d_month d = d_month d' /\ d_year d = d_year d' /\
  t_hour d = t_hour d' /\ t_min d = t_min d' /\ t_sec d = t_sec d'.
Proof.
  intros d d' t V V' Y Y' E E'. rewrite httpDate_ok in E, E' by auto. rewrite <- E' in E. injection E as E.
  destruct V, V'. eapply rfc1123_inj; [..|exact E]; assumption.
Qed.
(** years before 1000 do not give the fixed-width format *)
Theorem C33_early_years_refuted : exists d, valid_dt d /\ d_year d = 999 /\
  httpDate d = Some (lit "Mon, 01 Jan 999 00:00:00 GMT").
Proof. exists (mkDt 1 1 1 999 0 0 0). split; [constructor; cbn; lia|]. vm_compute. auto. Qed.
Example C33_case : httpDate (mkDt 2 17 11 2026 22 5 9) = Some (lit "Tue, 17 Nov 2026 22:05:09 GMT") /\
  valid_dt (mkDt 2 17 11 2026 22 5 9).
Proof. split; [vm_compute; reflexivity|constructor; cbn; lia]. Qed.

(** ** C34: mime types *)
Theorem C34_mime_by_extension : forall base ext, ~ In "."%char ext ->
  mimeType (base ++ lit "." ++ ext) = mime_of_ext ext.
Proof. exact mimeType_ext. Qed.
Theorem C34_no_extension : forall name, ~ In "."%char name -> mimeType name = lit "application/octet-stream".
Proof. exact mimeType_noext. Qed.
Example C34_case : mimeType (lit "a/b.tar.JPG") = lit "image/jpeg" /\ mimeType (lit "html") = lit "application/octet-stream".
Proof. vm_compute. auto. Qed.

Print Assumptions C25_request_params.
Print Assumptions C26_set_then_get.
Print Assumptions C27_roundtrip.
Print Assumptions C27_total.
Print Assumptions C28_ascii_ci.
Print Assumptions C29_numbers.
Print Assumptions C30_test.
Print Assumptions C31_roundtrip.
Print Assumptions C32_message.
Print Assumptions C33_injective.
Print Assumptions C34_mime_by_extension.
