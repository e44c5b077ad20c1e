(** Property C70: the HTTP answers of client serving. *)
From Coq Require Import Ascii.
From Verif Require Import Base GoTypes Serve ServeSpec Http HttpSpec HttpProofs.

(** ** C70 HTTP answers of client serving
    A request for something else than a bundle file goes on to another handler. *)
Theorem C70_others : ∀ (fs : list text → option file) (prefix : text) (so : option bool) (install : option (list text)) (r : request) (accept : text),
  respond fs prefix so install r accept = None ↔ ¬ for_bundle prefix (rq_path r).
Proof. exact respond_other. Qed.
Print Assumptions C70_others.
(** 405 for every method other than GET and HEAD; an answer 405 or 304 says nothing about caching and is not compressed. *)
Theorem C70_method : ∀ (fs : list text → option file) (prefix : text) (so : option bool) (install : option (list text)) (r : request) (accept : text) (s : response),
  respond fs prefix so install r accept = Some s →
  (rs_status s = 405%N ↔ rq_method r ≠ "GET" ∧ rq_method r ≠ "HEAD") ∧
  (rs_status s = 405%N ∨ rs_status s = 304%N → hdr s "ETag" = None ∧ hdr s "Cache-Control" = None ∧ hdr s "Content-Encoding" = None).
Proof. exact method_thm. Qed.
Print Assumptions C70_method.
(** The status of a reading request for a bundle file. *)
Theorem C70_status : ∀ (fs : list text → option file) (prefix : text) (so : option bool) (dir : list text) (r : request) (accept f : text),
  install_dir dir → reads prefix r f → ∃ s, respond fs prefix so (Some dir) r accept = Some s ∧
  (rs_status s = 304%N ↔ tag_matches (rq_inm r)) ∧
  (rs_status s = 200%N ↔ ¬ tag_matches (rq_inm r) ∧ is_Some (fs (dir ++ [txt "client-dist"; f]))) ∧
  (rs_status s = 404%N ↔ ¬ tag_matches (rq_inm r) ∧ fs (dir ++ [txt "client-dist"; f]) = None).
Proof. exact status_thm. Qed.
Print Assumptions C70_status.
(** The body is what was read from the file asked for, in the format registered for the content coding announced, unless that is "deflate". *)
Theorem C70_body_partial : ∀ (fs : list text → option file) (prefix : text) (so : option bool) (dir : list text) (r : request) (accept f : text),
  install_dir dir → reads prefix r f → ∀ s : response, respond fs prefix so (Some dir) r accept = Some s → rs_status s = 200%N →
  ∃ x, fs (dir ++ [txt "client-dist"; f]) = Some x ∧ rs_bytes s = fl_bytes x ∧
  (hdr s "Content-Encoding" ≠ Some "deflate" → registered (hdr s "Content-Encoding") = Some (rs_format s)).
Proof. exact body_thm. Qed.
Print Assumptions C70_body_partial.
(** The other headers of a file that is served. *)
Theorem C70_headers : ∀ (fs : list text → option file) (prefix : text) (so : option bool) (dir : list text) (r : request) (accept f : text),
  install_dir dir → reads prefix r f → ∀ s : response, respond fs prefix so (Some dir) r accept = Some s → rs_status s = 200%N →
  (map_file f → hdr s "Content-Type" = Some "application/json; charset=utf-8") ∧
  (¬ map_file f → hdr s "Content-Type" = Some "application/javascript; charset=utf-8") ∧
  hdr s "Cache-Control" = Some "public, max-age=0" ∧
  (∃ t, hdr s "ETag" = Some t ∧ tag_matches t) ∧
  (∀ n v, hdr s n = Some v → n ∈ ["Content-Type"; "Cache-Control"; "ETag"; "Content-Encoding"]).
Proof. exact headers_thm. Qed.
Print Assumptions C70_headers.
(** The content coding is the first of gzip, deflate, br and zstd that the client names; the file is sent as it is if the client names none. *)
Theorem C70_coding : ∀ (fs : list text → option file) (prefix : text) (so : option bool) (dir : list text) (r : request) (accept f : text),
  install_dir dir → reads prefix r f → ∀ s : response, respond fs prefix so (Some dir) r accept = Some s → rs_status s = 200%N →
  ∀ (cs : list clause) (e : string), Forall clause_ok cs → accept = header cs → hdr s "Content-Encoding" = Some e ↔ preferred cs e.
Proof. exact negotiate_thm. Qed.
Print Assumptions C70_coding.
(** The client accepts the coding, if it gives no weight of zero. *)
Theorem C70_acceptable_partial : ∀ (fs : list text → option file) (prefix : text) (so : option bool) (dir : list text) (r : request) (accept f : text),
  install_dir dir → reads prefix r f → ∀ s : response, respond fs prefix so (Some dir) r accept = Some s → rs_status s = 200%N →
  ∀ (cs : list clause) (e : string), Forall clause_ok cs → accept = header cs → (∀ c, c ∈ cs → ¬ zero_weight (cl_weight c)) →
  hdr s "Content-Encoding" = Some e → acceptable cs e.
Proof. exact acceptable_thm. Qed.
Print Assumptions C70_acceptable_partial.
(** An answer with an entity tag is confirmed by 304, and it is the answer that would be given again, if the file is the same and the client
    accepts the same codings. *)
Theorem C70_confirmed_partial : ∀ (fs fs' : list text → option file) (prefix : text) (so : option bool) (dir : list text) (r r' : request) (accept accept' f : text) (s : response) (t : string),
  install_dir dir → reads prefix r f → reads prefix r' f →
  respond fs prefix so (Some dir) r accept = Some s → hdr s "ETag" = Some t → rq_inm r' = t →
  fs' (dir ++ [txt "client-dist"; f]) = fs (dir ++ [txt "client-dist"; f]) → accept' = accept →
  (∃ s', respond fs' prefix so (Some dir) r' accept' = Some s' ∧ rs_status s' = 304%N) ∧
  respond fs' prefix so (Some dir) (Request "GET" (rq_path r') "") accept' = Some s.
Proof. exact fresh_thm. Qed.
Print Assumptions C70_confirmed_partial.

Definition ex_dir : list text := [txt "opt"; txt "app"].
Definition ex_bundle : text := txt "socket.io.min.js.map".
Definition ex_fs (p : list text) : option file :=
  if decide (p = ex_dir ++ [txt "client-dist"; ex_bundle]) then Some (File "{}" true)
  else if decide (p = ex_dir ++ [txt "client-dist"; txt "socket.io.js"]) then Some (File "half of it" false) else None.
Definition ex_get (f : string) (inm : string) : request := Request "GET" (txt "/socket.io/" ++ txt f) inm.
Definition ex_ask (f : string) (inm : string) (cs : list clause) : option response := respond ex_fs (txt "/socket.io/") None (Some ex_dir) (ex_get f inm) (header cs).
Lemma ex_dir_ok : install_dir ex_dir.
Proof. repeat first [apply Forall_nil_2|apply Forall_cons_2]; (split_and!; [done..|by_eval]). Qed.
Lemma ex_reads a b c inm : a ∈ [""; ".msgpack"; ".esm"] → b ∈ [""; ".min"] → c ∈ [""; ".map"] →
  reads (txt "/socket.io/") (ex_get ("socket.io" ++ a ++ b ++ ".js" ++ c) inm) (txt ("socket.io" ++ a ++ b ++ ".js" ++ c)).
Proof.
  intros Ha Hb Hc. exists (txt "/socket.io"). split_and!.
  - split; [by exists 1|done].
  - by constructor.
  - reflexivity.
  - by left.
Qed.
Example C70_example :
  install_dir ex_dir ∧ reads (txt "/socket.io/") (ex_get "socket.io.min.js.map" "") ex_bundle ∧
  Forall clause_ok [Clause "br" (Some "1.0"); Clause "zstd" (Some "0.5"); Clause "*" (Some "0")] ∧
  (∃ s, ex_ask "socket.io.min.js.map" "" [Clause "br" (Some "1.0"); Clause "zstd" (Some "0.5"); Clause "*" (Some "0")] = Some s ∧
    rs_status s = 200%N ∧ hdr s "Content-Encoding" = Some "br" ∧ rs_format s = Rfc7932 ∧ rs_bytes s = "{}" ∧
    hdr s "Content-Type" = Some "application/json; charset=utf-8" ∧ hdr s "ETag" = Some etag) ∧
  (∃ s, ex_ask "socket.io.min.js.map" "" [Clause "identity" None] = Some s ∧ hdr s "Content-Encoding" = None ∧ rs_format s = Verbatim) ∧
  (∃ s, ex_ask "socket.io.min.js.map" ("W/" ++ etag) [] = Some s ∧ rs_status s = 304%N) ∧
  (∃ s, ex_ask "socket.io.esm.js" "" [] = Some s ∧ rs_status s = 404%N).
Proof.
  split; [exact ex_dir_ok|]. split; [apply (ex_reads "" ".min" ".map"); by_eval|]. split.
  - repeat first [apply Forall_nil_2|apply Forall_cons_2]; (split; [by_eval|]); intros w [= <-]; unfold digit; by_eval.
  - split_and!; (eexists; split; [vm_compute; reflexivity|]); vm_compute; done.
Qed.
(** The client says that it does not accept gzip, and the file is sent in gzip. *)
Theorem C70_acceptable_refuted : ∃ (cs : list clause) (s : response) (e : string), Forall clause_ok cs ∧
  ex_ask "socket.io.min.js.map" "" cs = Some s ∧ rs_status s = 200%N ∧ hdr s "Content-Encoding" = Some e ∧ ¬ acceptable cs e.
Proof.
  exists [Clause "gzip" (Some "0"); Clause "br" None]. eexists. exists "gzip". split; [|split; [vm_compute; reflexivity|split_and!; [reflexivity..|]]].
  - repeat first [apply Forall_nil_2|apply Forall_cons_2]; (split; [by_eval|]); [|done]; intros w [= <-]; unfold digit; by_eval.
  - intros (w & Hw & Hz). apply elem_of_cons in Hw as [[= ->]|[[=]|Hw%elem_of_nil]%elem_of_cons]; [|done].
    apply Hz. exists "0". split; [done|]. by_eval.
Qed.
Print Assumptions C70_acceptable_refuted.
(** The coding announced as "deflate" is not the registered format of that name. *)
Theorem C70_format_refuted : ∃ (cs : list clause) (s : response), Forall clause_ok cs ∧
  ex_ask "socket.io.min.js.map" "" cs = Some s ∧ rs_status s = 200%N ∧ registered (hdr s "Content-Encoding") ≠ Some (rs_format s).
Proof.
  exists [Clause "deflate" None]. eexists. split; [|split; [vm_compute; reflexivity|split; [reflexivity|vm_compute; discriminate]]].
  repeat first [apply Forall_nil_2|apply Forall_cons_2]; (split; [by_eval|done]).
Qed.
Print Assumptions C70_format_refuted.
(** The answer is 200 although reading the file failed on the way. *)
Theorem C70_whole_refuted : ∃ (s : response) (x : file), ex_ask "socket.io.js" "" [] = Some s ∧ rs_status s = 200%N ∧
  ex_fs (ex_dir ++ [txt "client-dist"; txt "socket.io.js"]) = Some x ∧ fl_whole x = false ∧ rs_bytes s = fl_bytes x.
Proof. eexists _, _. split; [vm_compute; reflexivity|]. split; [reflexivity|]. split; [vm_compute; reflexivity|]. split; reflexivity. Qed.
Print Assumptions C70_whole_refuted.
(** Two answers to the same URL, both for public caches and without a Vary header, have the same entity tag and different bodies: a client
    that accepts no coding is told by 304 that the compressed copy of a cache is good. *)
Theorem C70_variants_refuted : ∃ (s1 s2 s3 : response) (t : string),
  ex_ask "socket.io.min.js.map" "" [Clause "gzip" None] = Some s1 ∧ ex_ask "socket.io.min.js.map" "" [Clause "identity" None] = Some s2 ∧
  hdr s1 "ETag" = Some t ∧ hdr s2 "ETag" = Some t ∧ hdr s1 "Vary" = None ∧ hdr s1 "Cache-Control" = Some "public, max-age=0" ∧
  rs_format s1 ≠ rs_format s2 ∧
  ex_ask "socket.io.min.js.map" t [Clause "identity" None] = Some s3 ∧ rs_status s3 = 304%N.
Proof.
  eexists _, _, _, etag. split; [vm_compute; reflexivity|]. split; [vm_compute; reflexivity|]. split_and!; try (vm_compute; reflexivity).
  vm_compute; discriminate.
Qed.
Print Assumptions C70_variants_refuted.
(** The answer that there is no such file has the entity tag too: once the file is there, a client that asks whether its copy is good is told
    that it is. *)
Theorem C70_confirmed_refuted : ∃ (fs fs' : list text → option file) (f : text) (s1 s2 s3 : response) (t : string),
  reads (txt "/socket.io/") (ex_get "socket.io.js" "") f ∧
  respond fs (txt "/socket.io/") None (Some ex_dir) (ex_get "socket.io.js" "") [] = Some s1 ∧ rs_status s1 = 404%N ∧ hdr s1 "ETag" = Some t ∧
  respond fs' (txt "/socket.io/") None (Some ex_dir) (ex_get "socket.io.js" "") [] = Some s2 ∧ rs_status s2 = 200%N ∧
  respond fs' (txt "/socket.io/") None (Some ex_dir) (ex_get "socket.io.js" t) [] = Some s3 ∧ rs_status s3 = 304%N.
Proof.
  exists (λ _, None), (λ _, Some (File "code" true)), (txt "socket.io.js"). eexists _, _, _, etag.
  split; [apply (ex_reads "" "" ""); by_eval|]. split_and!; vm_compute; reflexivity.
Qed.
Print Assumptions C70_confirmed_refuted.
