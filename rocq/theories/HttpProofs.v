From Coq Require Import Ascii.
From Verif Require Import Base GoTypes Serve ServeSpec ServeProofs Http HttpSpec.

Lemma contains_spec n h : contains n h = true ↔ ∃ a b, h = a ++ n ++ b.
Proof.
  induction h as [|c h IH]; cbn.
  - destruct (strip n []) as [r|] eqn:E.
    + apply strip_Some in E. split; [|done]. intros _. exists [], r. done.
    + split; [done|]. intros (a & b & Hab). symmetry in Hab. apply app_nil in Hab as [-> Hab].
      assert (strip n [] = Some b) by by apply strip_Some. congruence.
  - destruct (strip n (c :: h)) as [r|] eqn:E.
    + apply strip_Some in E. split; [|done]. intros _. exists [], r. done.
    + rewrite IH. split.
      * intros (a & b & ->). by exists (c :: a), b.
      * intros (a & b & Hab). destruct a as [|x a].
        -- assert (strip n (c :: h) = Some b) by by apply strip_Some. congruence.
        -- injection Hab as <- ->. by exists a, b.
Qed.

Lemma word_prefix (s : ascii) (n z y b : text) : s ∉ n → z ++ s :: y = n ++ b → ∃ b', z = n ++ b'.
Proof.
  revert z. induction n as [|d n IH]; intros z Hs E; [by exists z|].
  rewrite not_elem_of_cons in Hs. destruct Hs as [Hd Hs]. destruct z as [|e z]; cbn in E; injection E as -> E; [done|].
  destruct (IH z Hs E) as (b' & ->). by exists b'.
Qed.
(** A word without the separator is on one side of it. *)
Lemma word_split (s : ascii) (n x y a b : text) : s ∉ n → n ≠ [] → x ++ s :: y = a ++ n ++ b →
  (∃ b', x = a ++ n ++ b') ∨ (∃ a', y = a' ++ n ++ b).
Proof.
  intros Hs Hn. revert a. induction x as [|c x IH]; intros a E; cbn in E.
  - destruct a as [|d a]; cbn in E.
    + destruct n as [|d n]; [done|]. injection E as <- _. rewrite elem_of_cons in Hs. tauto.
    + injection E as <- ->. right. by exists a.
  - destruct a as [|d a]; cbn in E.
    + destruct (word_prefix s n (c :: x) y b Hs E) as (b' & Hb').
      left. exists b'. done.
    + injection E as <- E. destruct (IH a E) as [(b' & ->)|(a' & ->)]; [left; by exists b'|right; by exists a'].
Qed.

Definition word (e : string) : Prop :=
  txt e ≠ [] ∧ ","%char ∉ txt e ∧ " "%char ∉ txt e ∧ ";"%char ∉ txt e ∧
  (∀ c, c ∈ txt "q=" ∨ digit c → head (txt e) ≠ Some c) ∧
  (∀ k a b, k ∈ codings → txt k = a ++ txt e ++ b → k = e).
Lemma word_coding e : e ∈ ["gzip"; "deflate"; "br"; "zstd"] → word e.
Proof.
  intros He. unfold word. split_and!.
  - by repeat (apply elem_of_cons in He as [->|He]; [done|]); apply elem_of_nil in He.
  - repeat (apply elem_of_cons in He as [->|He]; [apply (bool_decide_unpack _); vm_compute; exact I|]). by apply elem_of_nil in He.
  - repeat (apply elem_of_cons in He as [->|He]; [apply (bool_decide_unpack _); vm_compute; exact I|]). by apply elem_of_nil in He.
  - repeat (apply elem_of_cons in He as [->|He]; [apply (bool_decide_unpack _); vm_compute; exact I|]). by apply elem_of_nil in He.
  - intros c Hc Hh.
    assert (c ∈ txt "q=0123456789.") as Hc'.
    { change (txt "q=0123456789.") with (txt "q=" ++ txt "0123456789."). by apply elem_of_app. }
    assert (Forall (λ c, head (txt e) ≠ Some c) (txt "q=0123456789.")) as HF; [|by apply (proj1 (Forall_forall _ _) HF c Hc')].
    repeat (apply elem_of_cons in He as [->|He]; [apply (bool_decide_unpack _); vm_compute; exact I|]). by apply elem_of_nil in He.
  - intros k a b Hk E.
    assert (contains (txt e) (txt k) = true) as Hc by (apply contains_spec; by exists a, b).
    assert (Forall (λ k, contains (txt e) (txt k) = true → k = e) codings) as HF; [|by apply (proj1 (Forall_forall _ _) HF k Hk)].
    repeat (apply elem_of_cons in He as [->|He]; [apply (bool_decide_unpack _); vm_compute; exact I|]). by apply elem_of_nil in He.
Qed.
Lemma clause_word e c a b : word e → clause_ok c → write_clause c = a ++ txt e ++ b → cl_coding c = e.
Proof.
  intros (Hn & _ & _ & Hs & Hh & Hk) [Hc Hw] E. unfold write_clause in E. destruct (cl_weight c) as [w|].
  - change (txt ";q=" ++ txt w) with (";"%char :: txt "q=" ++ txt w) in E.
    destruct (word_split _ _ _ _ _ _ Hs Hn E) as [(b' & E')|(a' & E')]; [by eapply Hk|].
    exfalso. destruct (txt e) as [|d n] eqn:Ed; [done|].
    assert (d ∈ txt "q=" ++ txt w) as Hd by (rewrite E'; apply elem_of_app; right; left).
    apply (Hh d); [|done]. apply elem_of_app in Hd as [Hd|Hd]; [by left|right].
    by apply (proj1 (Forall_forall _ _) (Hw w eq_refl)).
  - rewrite app_nil_r in E. by eapply Hk.
Qed.
Lemma header_word e cs a b : word e → Forall clause_ok cs → header cs = a ++ txt e ++ b → ∃ w, Clause e w ∈ cs.
Proof.
  intros Hwd Hok. revert a. induction cs as [|c cs IH]; intros a E.
  - cbn in E. symmetry in E. apply app_nil in E as [_ E]. apply app_nil in E as [E _]. destruct Hwd as (Hn & _). done.
  - apply Forall_cons in Hok as [Hc Hok]. destruct cs as [|c' cs].
    + cbn [header] in E. apply (clause_word e c a b Hwd Hc) in E. exists (cl_weight c). rewrite <- E. destruct c. left.
    + change (header (c :: c' :: cs)) with (write_clause c ++ ","%char :: [] ++ " "%char :: header (c' :: cs)) in E.
      pose proof Hwd as (Hn & Hcomma & Hspace & _).
      destruct (word_split _ _ _ _ _ _ Hcomma Hn E) as [(b' & E')|(a' & E')].
      * apply (clause_word e c a b' Hwd Hc) in E'. exists (cl_weight c). rewrite <- E'. destruct c. left.
      * destruct (word_split _ _ _ _ _ _ Hspace Hn E') as [(b'' & E'')|(a'' & E'')].
        -- symmetry in E''. apply app_nil in E'' as [_ E'']. apply app_nil in E'' as [E'' _]. done.
        -- destruct (IH Hok a'' E'') as (w & Hw). exists w. by right.
Qed.
Lemma header_named e w cs : Clause e w ∈ cs → ∃ a b, header cs = a ++ txt e ++ b.
Proof.
  induction cs as [|c cs IH]; [by intros ?%elem_of_nil|]. rewrite elem_of_cons. intros [<-|H].
  - destruct cs as [|c' cs].
    + cbn [header]. unfold write_clause; cbn [cl_coding]. exists []. eexists. reflexivity.
    + change (header (Clause e w :: c' :: cs)) with (write_clause (Clause e w) ++ txt ", " ++ header (c' :: cs)).
      unfold write_clause; cbn [cl_coding]. exists []. eexists. rewrite <- app_assoc. reflexivity.
  - destruct (IH H) as (a & b & E). destruct cs as [|c' cs]; [by apply elem_of_nil in H|].
    change (header (c :: c' :: cs)) with (write_clause c ++ txt ", " ++ header (c' :: cs)). rewrite E.
    exists (write_clause c ++ txt ", " ++ a), b. by rewrite <- !app_assoc.
Qed.
Lemma named_contains e cs : e ∈ ["gzip"; "deflate"; "br"; "zstd"] → Forall clause_ok cs →
  contains (txt e) (header cs) = true ↔ ∃ w, Clause e w ∈ cs.
Proof.
  intros He Hok. rewrite contains_spec. split.
  - intros (a & b & E). exact (header_word e cs a b (word_coding e He) Hok E).
  - intros (w & Hw). exact (header_named e w cs Hw).
Qed.
Lemma contained_spec cs e : Forall clause_ok cs → e ≠ "" → contained (header cs) ["gzip"; "deflate"; "br"; "zstd"] = e ↔ preferred cs e.
Proof.
  intros Hok He. unfold preferred; cbv zeta.
  rewrite <- (named_contains "gzip"), <- (named_contains "deflate"), <- (named_contains "br"), <- (named_contains "zstd")
    by (done || (apply (bool_decide_unpack _); vm_compute; exact I)).
  cbn [contained].
  destruct (contains (txt "gzip") (header cs)), (contains (txt "deflate") (header cs)), (contains (txt "br") (header cs)), (contains (txt "zstd") (header cs));
    naive_solver.
Qed.
Lemma contained_mem h : contained h ["gzip"; "deflate"; "br"; "zstd"] ∈ [""; "gzip"; "deflate"; "br"; "zstd"].
Proof. cbn [contained]. repeat case_match; apply (bool_decide_unpack _); vm_compute; exact I. Qed.

Lemma file_headers_enc f : file_headers f !! "Content-Encoding" = None.
Proof. unfold file_headers. by rewrite !lookup_insert_ne by done. Qed.
(** The answer written, by the coding chosen. *)
Lemma write_file_spec accept f nm :
  let s := write_file accept (file_headers nm) f in
  let e := contained accept ["gzip"; "deflate"; "br"; "zstd"] in
  rs_status s = 200%N ∧ rs_bytes s = fl_bytes f ∧ hdr s "Content-Encoding" = (if decide (e = "") then None else Some e) ∧
  (e ≠ "deflate" → registered (hdr s "Content-Encoding") = Some (rs_format s)) ∧
  (∀ n, n ≠ "Content-Encoding" → hdr s n = file_headers nm !! n).
Proof.
  cbv zeta. unfold hdr, write_file; cbv zeta. pose proof (contained_mem accept) as He.
  remember (contained accept ["gzip"; "deflate"; "br"; "zstd"]) as e eqn:Ee. clear Ee.
  repeat (apply elem_of_cons in He as [->|He]); [..|by apply elem_of_nil in He];
    repeat match goal with |- context [decide (?a = ?b :> string)] =>
      let E := fresh in destruct (decide (a = b)) as [E|E]; [try discriminate E|try (exfalso; exact (E eq_refl))] end;
    cbn [rs_status rs_bytes rs_headers rs_format]; rewrite ?lookup_insert, ?file_headers_enc; split_and!; try done;
    intros n Hn; rewrite ?lookup_insert_ne by done; done.
Qed.

Section Respond.
Context (fs : list text → option file) (prefix : text) (so : option bool) (install : option (list text)) (r : request) (accept : text).
Lemma reads_bundle f : reads prefix r f → for_bundle prefix (rq_path r).
Proof. intros (b & Hb & Hf & Hp & _). exists b, f, []. rewrite app_nil_r. split_and!; auto. Qed.
Lemma reads_base f : reads prefix r f → base (rq_path r) = f.
Proof. intros (b & Hb & Hf & -> & _). destruct (bundle_file_shape f Hf) as (g & c & -> & Hs). by rewrite base_of. Qed.
Lemma respond_other : respond fs prefix so install r accept = None ↔ ¬ for_bundle prefix (rq_path r).
Proof.
  unfold respond; cbv zeta. split.
  - intros E Hb. destruct (handle prefix so install r) eqn:Eh; try done.
    + by destruct (fs path).
    + rewrite (handle_bundle _ _ _ _ Hb) in Eh. unfold serve in Eh. cbv zeta in Eh. repeat case_decide; try done.
      by apply send_file_cases in Eh.
    + rewrite (handle_bundle _ _ _ _ Hb) in Eh. unfold serve in Eh. cbv zeta in Eh. repeat case_decide; try done.
      by apply send_file_cases in Eh.
  - intros Hb. destruct (handle_other prefix so install r Hb) as [-> | ->]; done.
Qed.
Lemma respond_method s : respond fs prefix so install r accept = Some s → rs_status s = 405%N ↔ rq_method r ≠ "GET" ∧ rq_method r ≠ "HEAD".
Proof.
  intros E. assert (for_bundle prefix (rq_path r)) as Hb.
  { destruct (decide (regex_match prefix (rq_path r) = true)) as [H|H]; [by apply regex_match_spec|].
    rewrite regex_match_spec in H. apply respond_other in H. congruence. }
  rewrite <- (handle_method prefix so install r Hb). unfold respond in E; cbv zeta in E.
  destruct (handle prefix so install r); try done; try (injection E as <-; by split).
  destruct (fs path); injection E as <-; (split; [|done]).
  - intros H. destruct (write_file_spec accept f (base (rq_path r))) as (Hst & _). rewrite Hst in H. done.
  - done.
Qed.
Lemma respond_304 s : respond fs prefix so install r accept = Some s →
  rs_status s = 304%N ↔ (rq_method r = "GET" ∨ rq_method r = "HEAD") ∧ tag_matches (rq_inm r).
Proof.
  intros E. assert (for_bundle prefix (rq_path r)) as Hb.
  { destruct (decide (regex_match prefix (rq_path r) = true)) as [H|H]; [by apply regex_match_spec|].
    rewrite regex_match_spec in H. apply respond_other in H. congruence. }
  transitivity (handle prefix so install r = NotModified).
  2:{ rewrite handle_304. tauto. }
  unfold respond in E; cbv zeta in E.
  destruct (handle prefix so install r); try done; try (injection E as <-; by split).
  destruct (fs path); injection E as <-; (split; [|done]).
  - intros H. destruct (write_file_spec accept f (base (rq_path r))) as (Hst & _). rewrite Hst in H. done.
  - done.
Qed.
Lemma respond_304_bare s : respond fs prefix so install r accept = Some s → rs_status s = 304%N → s = Response 304 ∅ Verbatim "".
Proof.
  intros E H. unfold respond in E; cbv zeta in E.
  destruct (handle prefix so install r); try done; try (injection E as <-; done).
  destruct (fs path); injection E as <-; [|done].
  destruct (write_file_spec accept f (base (rq_path r))) as (Hst & _). rewrite Hst in H. done.
Qed.
(** The answer to a proper reading request: the file, or that there is none. *)
Lemma respond_reads dir f : install = Some dir → install_dir dir → reads prefix r f → ¬ tag_matches (rq_inm r) →
  respond fs prefix so install r accept =
    Some match fs (dir ++ [client_dist; f]) with
         | Some x => write_file accept (file_headers f) x
         | None => http_error 404 "file not found" (file_headers f)
         end.
Proof.
  intros Hi Hd Hr Ht. pose proof (reads_base f Hr) as Hbase. destruct Hr as (b & Hb & Hf & Hp & Hm).
  unfold respond; cbv zeta. rewrite (opens_bundle prefix so install r dir b f Hi Hd Hb Hf Hp Hm Ht), Hbase.
  by destruct (fs (dir ++ [client_dist; f])).
Qed.
Lemma respond_200 s : respond fs prefix so install r accept = Some s → rs_status s = 200%N →
  ∃ p f, handle prefix so install r = Opened p ∧ fs p = Some f ∧ s = write_file accept (file_headers (base (rq_path r))) f.
Proof.
  intros E H. unfold respond in E; cbv zeta in E.
  destruct (handle prefix so install r) as [| | |p| |]; try (injection E as <-; done); try done.
  destruct (fs p) as [f|] eqn:Ef; injection E as <-; [|done]. by exists p, f.
Qed.
End Respond.

(** ** The properties *)
Lemma map_name f : bundle_file f → contains (txt ".map") f = true ↔ map_file f.
Proof.
  intros Hf. split.
  - intros Hc. destruct Hf as [a b c Ha Hb Hcc].
    repeat (apply elem_of_cons in Ha as [->|Ha]); [..|by apply elem_of_nil in Ha];
    (repeat (apply elem_of_cons in Hb as [->|Hb]); [..|by apply elem_of_nil in Hb]);
    (repeat (apply elem_of_cons in Hcc as [->|Hcc]); [..|by apply elem_of_nil in Hcc]);
    try (exfalso; vm_compute in Hc; discriminate Hc);
    match goal with |- map_file (txt ?s) =>
      let n := eval vm_compute in (Nat.sub (String.length s) 4) in exists (take n (txt s)); vm_compute; reflexivity end.
  - intros (g & ->). apply contains_spec. exists g, []. by rewrite app_nil_r.
Qed.
Section Served.
Context (fs : list text → option file) (prefix : text) (so : option bool) (dir : list text) (r : request) (accept f : text).
Context (Hd : install_dir dir) (Hr : reads prefix r f).
Lemma tag_dec : tag_matches (rq_inm r) ∨ ¬ tag_matches (rq_inm r).
Proof. unfold tag_matches. destruct (decide (rq_inm r = String "034" ("4.7.5" ++ String "034" ""))); [by left; left|].
  destruct (decide (rq_inm r = ("W/" ++ String "034" ("4.7.5" ++ String "034" ""))%string)); [by left; right|right; tauto]. Qed.
Lemma status_thm : ∃ s, respond fs prefix so (Some dir) r accept = Some s ∧
  (rs_status s = 304%N ↔ tag_matches (rq_inm r)) ∧
  (rs_status s = 200%N ↔ ¬ tag_matches (rq_inm r) ∧ is_Some (fs (dir ++ [txt "client-dist"; f]))) ∧
  (rs_status s = 404%N ↔ ¬ tag_matches (rq_inm r) ∧ fs (dir ++ [txt "client-dist"; f]) = None).
Proof.
  change (txt "client-dist") with client_dist.
  destruct tag_dec as [Ht|Ht].
  - assert (handle prefix so (Some dir) r = NotModified) as Eh.
    { apply handle_304. split_and!; [exact (reads_bundle prefix r f Hr)| |done]. by destruct Hr as (b & _ & _ & _ & ?). }
    eexists. split; [unfold respond; cbv zeta; by rewrite Eh|]. cbn. naive_solver.
  - rewrite (respond_reads fs prefix so (Some dir) r accept dir f eq_refl Hd Hr Ht).
    eexists. split; [done|]. destruct (fs (dir ++ [client_dist; f])) as [x|].
    + destruct (write_file_spec accept x f) as (-> & _). split_and!; (split; [try done|naive_solver]).
    + cbn. split_and!; (split; [try done|]); [naive_solver| |naive_solver]. intros [_ [? ?]]. done.
Qed.
Context (s : response) (Hs : respond fs prefix so (Some dir) r accept = Some s) (H200 : rs_status s = 200%N).
Lemma served : ∃ x, fs (dir ++ [client_dist; f]) = Some x ∧ s = write_file accept (file_headers f) x ∧ ¬ tag_matches (rq_inm r).
Proof.
  destruct tag_dec as [Ht|Ht].
  - exfalso. assert (rs_status s = 304%N) as H; [|congruence]. apply (respond_304 _ _ _ _ _ _ s Hs). split; [|done]. by destruct Hr as (b & _ & _ & _ & ?).
  - rewrite (respond_reads fs prefix so (Some dir) r accept dir f eq_refl Hd Hr Ht) in Hs. injection Hs as Hs'.
    destruct (fs (dir ++ [client_dist; f])) as [x|]; [|by rewrite <- Hs' in H200]. by exists x.
Qed.
Lemma body_thm : ∃ x, fs (dir ++ [txt "client-dist"; f]) = Some x ∧ rs_bytes s = fl_bytes x ∧
  (hdr s "Content-Encoding" ≠ Some "deflate" → registered (hdr s "Content-Encoding") = Some (rs_format s)).
Proof.
  destruct served as (x & Hx & -> & _). exists x. destruct (write_file_spec accept x f) as (_ & Hb & He & Hf & _).
  split_and!; [done|done|]. intros Hne. apply Hf. intros E. apply Hne. rewrite He, E. by rewrite decide_False.
Qed.
Lemma headers_thm :
  (map_file f → hdr s "Content-Type" = Some "application/json; charset=utf-8") ∧
  (¬ map_file f → hdr s "Content-Type" = Some "application/javascript; charset=utf-8") ∧
  hdr s "Cache-Control" = Some "public, max-age=0" ∧
  (∃ t, hdr s "ETag" = Some t ∧ tag_matches t) ∧
  (∀ n v, hdr s n = Some v → n ∈ ["Content-Type"; "Cache-Control"; "ETag"; "Content-Encoding"]).
Proof.
  destruct served as (x & Hx & -> & _). destruct (write_file_spec accept x f) as (_ & _ & _ & _ & Hh).
  rewrite !Hh by done. unfold file_headers. rewrite <- (map_name f) by (by destruct Hr as (b & _ & ? & _)).
  split_and!.
  - intros ->. by rewrite lookup_insert_ne, lookup_insert.
  - intros ->%not_true_is_false. by rewrite lookup_insert_ne, lookup_insert.
  - by rewrite !lookup_insert_ne, lookup_insert by done.
  - exists etag. rewrite lookup_insert. split; [done|]. by left.
  - intros n v Hn. destruct (decide (n = "Content-Encoding")) as [->|Hne]; [apply (bool_decide_unpack _); vm_compute; exact I|].
    rewrite Hh in Hn by done. unfold file_headers in Hn.
    destruct (decide (n = "ETag")) as [->|?]; [apply (bool_decide_unpack _); vm_compute; exact I|].
    destruct (decide (n = "Content-Type")) as [->|?]; [apply (bool_decide_unpack _); vm_compute; exact I|].
    destruct (decide (n = "Cache-Control")) as [->|?]; [apply (bool_decide_unpack _); vm_compute; exact I|].
    rewrite !lookup_insert_ne in Hn by done. by rewrite lookup_empty in Hn.
Qed.
Lemma negotiate_thm cs e : Forall clause_ok cs → accept = header cs → hdr s "Content-Encoding" = Some e ↔ preferred cs e.
Proof.
  intros Hok Ha. destruct served as (x & Hx & -> & _). destruct (write_file_spec accept x f) as (_ & _ & He & _ & _). rewrite He, Ha.
  assert (¬ preferred cs "") as Hn by (unfold preferred; naive_solver).
  destruct (decide (contained (header cs) ["gzip"; "deflate"; "br"; "zstd"] = "")) as [E0|E0].
  - split; [done|]. intros Hp. exfalso. destruct (decide (e = "")) as [->|Hne]; [done|]. apply (contained_spec cs e Hok Hne) in Hp. congruence.
  - split.
    + intros E. apply (inj Some) in E. apply contained_spec; [done|by rewrite <- E|done].
    + intros Hp. f_equal. apply contained_spec; [done|by intros ->|done].
Qed.
Lemma acceptable_thm cs e : Forall clause_ok cs → accept = header cs → (∀ c, c ∈ cs → ¬ zero_weight (cl_weight c)) →
  hdr s "Content-Encoding" = Some e → acceptable cs e.
Proof.
  intros Hok Ha Hz He. apply (negotiate_thm cs e Hok Ha) in He.
  assert (∃ w, Clause e w ∈ cs) as (w & Hw).
  { unfold preferred in He; cbv zeta in He. destruct He as [[-> ?]|[[-> ?]|[[-> ?]|[-> ?]]]]; tauto. }
  exists w. split; [done|]. exact (Hz _ Hw).
Qed.
End Served.
(** The method and a tag which does not match make no difference to a file that is read. *)
Lemma fresh_thm (fs fs' : list text → option file) (prefix : text) (so : option bool) (dir : list text) (r r' : request) (accept accept' f : text) (s : response) (t : string) :
  install_dir dir → reads prefix r f → reads prefix r' f →
  respond fs prefix so (Some dir) r accept = Some s → hdr s "ETag" = Some t → rq_inm r' = t →
  fs' (dir ++ [txt "client-dist"; f]) = fs (dir ++ [txt "client-dist"; f]) → accept' = accept →
  (∃ s', respond fs' prefix so (Some dir) r' accept' = Some s' ∧ rs_status s' = 304%N) ∧
  respond fs' prefix so (Some dir) (Request "GET" (rq_path r') "") accept' = Some s.
Proof.
  change (txt "client-dist") with client_dist.
  intros Hd Hr Hr' Hs Ht Hi Hfs ->.
  assert (¬ tag_matches (rq_inm r)) as Hnt.
  { intros Htm. assert (rs_status s = 304%N) as H. { apply (respond_304 _ _ _ _ _ _ s Hs). split; [|done]. by destruct Hr as (b & _ & _ & _ & ?). }
    apply (respond_304_bare _ _ _ _ _ _ s Hs) in H. subst s. unfold hdr in Ht. cbn in Ht. by rewrite lookup_empty in Ht. }
  pose proof (respond_reads fs prefix so (Some dir) r accept dir f eq_refl Hd Hr Hnt) as E. rewrite Hs in E. injection E as E.
  assert (hdr s "ETag" = Some etag) as Ht'.
  { rewrite E. destruct (fs (dir ++ [client_dist; f])) as [x|].
    - destruct (write_file_spec accept x f) as (_ & _ & _ & _ & Hh). rewrite Hh by done. unfold file_headers. by rewrite lookup_insert.
    - unfold hdr, http_error. cbn [rs_headers]. rewrite !lookup_insert_ne by done. unfold file_headers. by rewrite lookup_insert. }
  split.
  - destruct (status_thm fs' prefix so dir r' accept f Hd Hr') as (s' & Hs' & H304 & _). exists s'. split; [done|]. apply H304. left.
    rewrite Hi. assert (t = etag) as -> by congruence. done.
  - rewrite (respond_reads fs' prefix so (Some dir) (Request "GET" (rq_path r') "") accept dir f eq_refl Hd).
    + by rewrite Hfs, E.
    + destruct Hr' as (b & ? & ? & ? & _). exists b. split_and!; auto.
    + unfold tag_matches. cbn [rq_inm]. intros [?|?]; discriminate.
Qed.
Lemma method_thm (fs : list text → option file) (prefix : text) (so : option bool) (install : option (list text)) (r : request) (accept : text) (s : response) :
  respond fs prefix so install r accept = Some s →
  (rs_status s = 405%N ↔ rq_method r ≠ "GET" ∧ rq_method r ≠ "HEAD") ∧
  (rs_status s = 405%N ∨ rs_status s = 304%N → hdr s "ETag" = None ∧ hdr s "Cache-Control" = None ∧ hdr s "Content-Encoding" = None).
Proof.
  intros Hs. split; [exact (respond_method _ _ _ _ _ _ s Hs)|]. intros H. unfold respond in Hs; cbv zeta in Hs. unfold hdr.
  destruct (handle prefix so install r) as [| | |p| |]; try done; try (injection Hs as <-).
  - unfold http_error; cbn [rs_headers]. rewrite !lookup_insert_ne by done. by rewrite !lookup_empty.
  - cbn [rs_headers]. by rewrite !lookup_empty.
  - cbn in H. naive_solver.
  - destruct (fs p) as [x|]; injection Hs as <-.
    + destruct (write_file_spec accept x (base (rq_path r))) as (Hst & _). rewrite Hst in H. naive_solver.
    + cbn in H. naive_solver.
Qed.
