From Coq Require Import Ascii.
From Verif Require Import Base GoTypes Serve ServeSpec.

Lemma strip_Some pre p r : strip pre p = Some r ↔ p = pre ++ r.
Proof.
  revert p. induction pre as [|a pre IH]; intros p; cbn.
  - naive_solver.
  - destruct p as [|b p]; [by split|]. destruct (decide (a = b)) as [->|Hne].
    + rewrite IH. naive_solver.
    + split; [done|]. intros [= -> _]. done.
Qed.

Lemma split_nil p : split_path p ≠ [].
Proof. destruct p as [|c p]; cbn; [done|]. destruct (decide (c = slash)); [done|]. by destruct (split_path p). Qed.
Lemma split_no_slash p x : x ∈ split_path p → slash ∉ x.
Proof.
  revert x. induction p as [|c p IH]; intros x; cbn.
  - rewrite elem_of_list_singleton. intros ->. apply not_elem_of_nil.
  - destruct (decide (c = slash)) as [->|Hc].
    + rewrite elem_of_cons. intros [->|Hx]; [apply not_elem_of_nil|by apply IH].
    + destruct (split_path p) as [|y l] eqn:E; [by apply split_nil in E|].
      rewrite elem_of_cons. intros [->|Hx].
      * rewrite not_elem_of_cons. split; [done|]. apply IH. left.
      * apply IH. by right.
Qed.
Lemma split_one x : slash ∉ x → split_path x = [x].
Proof.
  induction x as [|c x IH]; [done|]. rewrite not_elem_of_cons. intros [Hc Hx]. cbn.
  destruct (decide (c = slash)) as [->|_]; [done|]. by rewrite IH.
Qed.
Lemma split_app a b : split_path (a ++ slash :: b) = split_path a ++ split_path b.
Proof.
  induction a as [|c a IH]; cbn.
  - done.
  - destruct (decide (c = slash)); [by rewrite IH|]. rewrite IH.
    destruct (split_path a) eqn:E; [by apply split_nil in E|]. done.
Qed.
Lemma trim_snoc p c : c ≠ slash → trim (p ++ [c]) = p ++ [c].
Proof.
  intros Hc. induction p as [|a p IH]; cbn; [by destruct (decide (c = slash))|].
  rewrite IH. destruct p; done.
Qed.

Lemma base_cases p : base p = txt "/" ∨ slash ∉ base p.
Proof.
  unfold base. destruct p as [|c p]; [by right; apply (bool_decide_unpack _); vm_compute|].
  destruct (trim (c :: p)) as [|a q] eqn:E; [by left|]. right.
  destruct (last (split_path (a :: q))) as [x|] eqn:El.
  - apply last_Some_elem_of in El. by apply split_no_slash in El.
  - by apply last_None, split_nil in El.
Qed.
Lemma base_of a f c : slash ∉ f ++ [c] → base (a ++ slash :: f ++ [c]) = f ++ [c].
Proof.
  intros Hf. unfold base.
  assert (c ≠ slash) as Hc. { intros ->. apply Hf. rewrite elem_of_app. right. left. }
  assert (trim (a ++ slash :: f ++ [c]) = a ++ slash :: f ++ [c]) as Ht.
  { rewrite app_comm_cons, app_assoc. by apply trim_snoc. }
  rewrite Ht. destruct (a ++ slash :: f ++ [c]) as [|x y] eqn:E; [by destruct a|].
  rewrite <-E, split_app, (split_one (f ++ [c])) by done. by rewrite last_snoc.
Qed.

Lemma clean_components dir acc : install_dir dir → foldl clean_step acc dir = acc ++ dir.
Proof.
  revert acc. induction dir as [|c dir IH]; intros acc H; cbn; [by rewrite app_nil_r|].
  inversion H as [|? ? (H1 & H2 & H3 & _) Hd]; subst. rewrite IH by done. unfold clean_step.
  destruct (decide (c = [] ∨ c = txt ".")) as [[?|?]|_]; [done..|]. destruct (decide (c = txt "..")); [done|]. by rewrite <-app_assoc.
Qed.
Definition client_dist : text := txt "client-dist".
Lemma client_dist_component : component client_dist.
Proof.
  split_and!; try discriminate. apply (bool_decide_unpack _). by vm_compute.
Qed.
Lemma target_spec dir f : install_dir dir → f = txt "/" ∨ slash ∉ f →
  let t := clean (dir ++ [client_dist] ++ split_path f) in
  (component f ∧ t = dir ++ [client_dist; f]) ∨ ((f = [] ∨ f = txt "." ∨ f = txt "/") ∧ t = dir ++ [client_dist]) ∨ (f = txt ".." ∧ t = dir).
Proof.
  intros Hd Hf. cbv zeta. unfold clean. rewrite !foldl_app, (clean_components dir []) by done. cbn [app].
  assert (foldl clean_step dir [client_dist] = dir ++ [client_dist]) as ->.
  { apply clean_components. constructor; [apply client_dist_component|constructor]. }
  destruct Hf as [->|Hf].
  - right. left. split; [by right; right|]. done.
  - rewrite split_one by done. cbn [foldl]. unfold clean_step.
    destruct (decide (f = [] ∨ f = txt ".")) as [H|H]; [right; left; split; [tauto|reflexivity]|].
    destruct (decide (f = txt "..")) as [->|H2].
    + right. right. split; [done|]. rewrite reverse_snoc. cbn [tail]. by rewrite reverse_involutive.
    + left. split; [split_and!; tauto|]. by rewrite <-app_assoc.
Qed.

Lemma bundle_names_spec n : n ∈ bundle_names ↔ ∃ f, n = slash :: f ∧ bundle_file f.
Proof.
  unfold bundle_names. rewrite elem_of_list_bind. split.
  - intros (a & H & Ha). apply elem_of_list_bind in H as (b & H & Hb). apply elem_of_list_bind in H as (c & H & Hc).
    apply elem_of_list_singleton in H as ->. eexists. split; [reflexivity|]. by constructor.
  - intros (f & -> & [a b c Ha Hb Hc]). exists a. split; [|done]. apply elem_of_list_bind. exists b. split; [|done].
    apply elem_of_list_bind. exists c. split; [|done]. by apply elem_of_list_singleton.
Qed.
Lemma trim_bare p : bare p (trim p).
Proof.
  induction p as [|c p [(n & Hn) Hl]]; [by split; [exists 0|]|]. cbn [trim].
  destruct (trim p) as [|x q] eqn:E.
  - cbn [app] in Hn. case_decide as Hc.
    + split; [|done]. exists (S n). by rewrite Hc, Hn.
    + split; [exists n; by rewrite Hn|]. cbn. by intros [= ->].
  - split; [exists n; by rewrite Hn|]. done.
Qed.
Lemma bare_trim p b : bare p b → trim p = b.
Proof.
  intros [(n & ->) Hl]. induction b as [|c b IH].
  - cbn [app]. induction n as [|n IHn]; [done|]. cbn [replicate trim]. rewrite IHn. by rewrite decide_True.
  - cbn [app trim]. destruct b as [|x b]; [|rewrite IH by done; done].
    assert (trim ([] ++ replicate n "/"%char) = []) as ->. { cbn [app]. clear. induction n as [|n IHn]; [done|]. cbn [replicate trim]. rewrite IHn. by rewrite decide_True. }
    rewrite decide_False; [done|]. intros ->. by apply Hl.
Qed.
Lemma regex_match_spec prefix path : regex_match prefix path = true ↔ for_bundle prefix path.
Proof.
  unfold regex_match, for_bundle. split.
  - destruct (strip (trim prefix) path) as [rest|] eqn:E; [|done]. apply strip_Some in E as ->.
    rewrite existsb_exists. intros (n & Hn & Hm). apply elem_of_list_In, bundle_names_spec in Hn as (f & -> & Hf).
    destruct (strip (slash :: f) rest) as [r|] eqn:Er; [|done]. apply strip_Some in Er as ->.
    exists (trim prefix), f, r. split_and!; [apply trim_bare|done|done|]. destruct r as [|c r]; [by left|]. apply bool_decide_eq_true in Hm as ->. right. by exists r.
  - intros (b & f & rest & <-%bare_trim & Hf & -> & Hr).
    assert (strip (trim prefix) (trim prefix ++ slash :: f ++ rest) = Some (slash :: f ++ rest)) as -> by by apply strip_Some.
    apply existsb_exists. exists (slash :: f). split; [apply elem_of_list_In, bundle_names_spec; eauto|].
    assert (strip (slash :: f) (slash :: f ++ rest) = Some rest) as -> by by apply strip_Some.
    destruct Hr as [->|(r & ->)]; [done|]. by apply bool_decide_eq_true.
Qed.
Lemma bundle_file_shape f : bundle_file f → ∃ g c, f = g ++ [c] ∧ slash ∉ g ++ [c].
Proof.
  intros [a b c Ha Hb Hc].
  assert (slash ∉ txt ("socket.io" ++ a ++ b ++ ".js" ++ c) ∧ txt ("socket.io" ++ a ++ b ++ ".js" ++ c) ≠ []) as [H H0].
  { rewrite !elem_of_cons, elem_of_nil in Ha; rewrite !elem_of_cons, elem_of_nil in Hb; rewrite !elem_of_cons, elem_of_nil in Hc.
    destruct Ha as [->|[->|[->|[]]]], Hb as [->|[->|[]]], Hc as [->|[->|[]]]; (split; [apply (bool_decide_unpack _); by vm_compute|done]). }
  destruct (exists_last H0) as (g & x & E). exists g, x. by rewrite <-E.
Qed.
Lemma bundle_file_component f : bundle_file f → component f.
Proof.
  intros [a b c Ha Hb Hc].
  rewrite !elem_of_cons, elem_of_nil in Ha; rewrite !elem_of_cons, elem_of_nil in Hb; rewrite !elem_of_cons, elem_of_nil in Hc.
  destruct Ha as [->|[->|[->|[]]]], Hb as [->|[->|[]]], Hc as [->|[->|[]]]; (split_and!; [done..|apply (bool_decide_unpack _); by vm_compute]).
Qed.

Lemma tag_matches_spec inm : tag_matches inm ↔ inm ≠ "" ∧ (etag = inm ∨ ("W/" ++ etag)%string = inm).
Proof.
  unfold tag_matches, etag, quote, client_version. cbn. split.
  - intros [->| ->]; (split; [done|]); [by left|by right].
  - intros [_ [<-|<-]]; [by left|by right].
Qed.
Lemma send_file_opened install f p : send_file install f = Opened p →
  ∃ dir, install = Some dir ∧ p = clean (dir ++ [client_dist] ++ split_path f).
Proof.
  unfold send_file. destruct install as [dir|]; [|done]. destruct (strip _ _); [|done]. intros [= <-]. by exists dir.
Qed.
Lemma send_file_cases install f : send_file install f ≠ NotAllowed ∧ send_file install f ≠ NotModified ∧ send_file install f ≠ ToEngine ∧ send_file install f ≠ ToDefault.
Proof. unfold send_file. destruct install as [dir|]; [destruct (strip _ _)|]; done. Qed.

Section Handle.
Context (prefix : text) (so : option bool) (install : option (list text)) (r : request).
Lemma handle_bundle : for_bundle prefix (rq_path r) → handle prefix so install r = serve install r.
Proof. intros H. unfold handle. by rewrite (proj2 (regex_match_spec _ _) H). Qed.
Lemma handle_other : ¬ for_bundle prefix (rq_path r) → handle prefix so install r = ToEngine ∨ handle prefix so install r = ToDefault.
Proof.
  intros H. unfold handle. destruct (regex_match _ _) eqn:E; [by apply regex_match_spec in E|]. destruct so as [[]|]; auto.
Qed.
Lemma handle_method : for_bundle prefix (rq_path r) → handle prefix so install r = NotAllowed ↔ rq_method r ≠ "GET" ∧ rq_method r ≠ "HEAD".
Proof.
  intros H. rewrite handle_bundle by done. unfold serve. destruct (decide (rq_method r ≠ "GET" ∧ rq_method r ≠ "HEAD")) as [Hm|Hm]; [done|].
  destruct (decide _); split; try done. intros E. by apply send_file_cases in E.
Qed.
Lemma handle_304 : handle prefix so install r = NotModified ↔
  for_bundle prefix (rq_path r) ∧ (rq_method r = "GET" ∨ rq_method r = "HEAD") ∧ tag_matches (rq_inm r).
Proof.
  destruct (decide (regex_match prefix (rq_path r) = true)) as [Hb|Hb].
  - apply regex_match_spec in Hb. rewrite handle_bundle by done. unfold serve. rewrite tag_matches_spec.
    destruct (decide (rq_method r ≠ "GET" ∧ rq_method r ≠ "HEAD")) as [Hm|Hm]; [naive_solver|].
    assert (rq_method r = "GET" ∨ rq_method r = "HEAD") as Hm'. { destruct (decide (rq_method r = "GET")); [by left|]. destruct (decide (rq_method r = "HEAD")); [by right|tauto]. }
    destruct (decide _) as [Ht|Ht]; [naive_solver|]. split; [|naive_solver]. intros E. by apply send_file_cases in E.
  - rewrite regex_match_spec in Hb. split; [|naive_solver]. intros E. destruct handle_other; congruence.
Qed.
Lemma handle_opened p : handle prefix so install r = Opened p →
  for_bundle prefix (rq_path r) ∧ (rq_method r = "GET" ∨ rq_method r = "HEAD") ∧ ¬ tag_matches (rq_inm r) ∧
  ∃ dir, install = Some dir ∧ p = clean (dir ++ [client_dist] ++ split_path (base (rq_path r))).
Proof.
  intros E. destruct (decide (regex_match prefix (rq_path r) = true)) as [Hb|Hb]; rewrite regex_match_spec in Hb; [|destruct handle_other; congruence].
  split; [done|]. rewrite handle_bundle in E by done. unfold serve in E. cbv zeta in E. rewrite tag_matches_spec.
  destruct (decide (rq_method r ≠ "GET" ∧ rq_method r ≠ "HEAD")) as [Hm|Hm]; [done|].
  destruct (decide (rq_inm r ≠ "" ∧ (etag = rq_inm r ∨ ("W/" ++ etag)%string = rq_inm r))) as [Ht|Ht]; [done|].
  apply send_file_opened in E. split_and!; [|done|done].
  destruct (decide (rq_method r = "GET")); [by left|]. destruct (decide (rq_method r = "HEAD")); [by right|tauto].
Qed.
Lemma opened_inside dir p : install = Some dir → install_dir dir → handle prefix so install r = Opened p →
  (∃ f, component f ∧ p = dir ++ [client_dist; f]) ∨ p = dir ++ [client_dist] ∨ (p = dir ∧ base (rq_path r) = txt "..").
Proof.
  intros Hi Hd E. apply handle_opened in E as (_ & _ & _ & dir' & Hi' & ->). assert (dir' = dir) as -> by congruence.
  destruct (target_spec dir (base (rq_path r)) Hd (base_cases _)) as [[? ->]|[[_ ->]|[? ->]]]; eauto.
Qed.
Lemma opened_bundle dir p : install = Some dir → install_dir dir → "?"%char ∉ rq_path r → handle prefix so install r = Opened p →
  ∃ f, bundle_file f ∧ p = dir ++ [client_dist; f].
Proof.
  intros Hi Hd Hq E. apply handle_opened in E as ((b0 & f & rest & Hb0 & Hf & Hp & Hr) & _ & _ & dir' & Hi' & ->). assert (dir' = dir) as -> by congruence.
  exists f. split; [done|]. destruct Hr as [->|(r' & ->)].
  - rewrite app_nil_r in Hp. destruct (bundle_file_shape f Hf) as (g & c & -> & Hs).
    rewrite Hp, base_of by done. destruct (target_spec dir (g ++ [c]) Hd (or_intror Hs)) as [[_ ->]|[[H _]|[H _]]]; [done| |]; exfalso; apply bundle_file_component in Hf as (H1 & H2 & H3 & H4).
    + destruct H as [H|[H|H]]; [done|done|]. apply H4. rewrite H. left.
    + done.
  - exfalso. apply Hq. rewrite Hp, elem_of_app. right. right. rewrite elem_of_app. right. left.
Qed.
(** With an installation directory, a request for a bundle file by GET without a matching tag opens it. *)
Lemma opens_bundle dir b f : install = Some dir → install_dir dir → bare prefix b → bundle_file f → rq_path r = b ++ slash :: f →
  (rq_method r = "GET" ∨ rq_method r = "HEAD") → ¬ tag_matches (rq_inm r) → handle prefix so install r = Opened (dir ++ [client_dist; f]).
Proof.
  intros Hi Hd Hb Hf Hp Hm Ht. rewrite handle_bundle. 2:{ exists b, f, []. rewrite app_nil_r. split_and!; auto. }
  unfold serve. cbv zeta. rewrite tag_matches_spec in Ht. destruct (decide (rq_method r ≠ "GET" ∧ rq_method r ≠ "HEAD")) as [Hm'|_]; [naive_solver|].
  destruct (decide (rq_inm r ≠ "" ∧ (etag = rq_inm r ∨ ("W/" ++ etag)%string = rq_inm r))) as [?|_]; [done|].
  destruct (bundle_file_shape f Hf) as (g & c & -> & Hs). rewrite Hp, base_of by done.
  unfold send_file. rewrite Hi. fold client_dist. cbv zeta.
  assert (clean (dir ++ [client_dist] ++ split_path (g ++ [c])) = dir ++ [client_dist; g ++ [c]]) as ->.
  { destruct (target_spec dir (g ++ [c]) Hd (or_intror Hs)) as [[_ ->]|[[H _]|[H _]]]; [done| |]; exfalso; apply bundle_file_component in Hf as (H1 & H2 & H3 & H4).
    + destruct H as [H|[H|H]]; [done|done|]. apply H4. rewrite H. left.
    + done. }
  assert (∃ q, render (dir ++ [client_dist; g ++ [c]]) = render dir ++ q) as (q & ->).
  { destruct dir as [|d dir]; [eexists; reflexivity|]. cbn [render app]. rewrite fmap_cons, fmap_app. exists (concat ((λ x, slash :: x) <$> [client_dist; g ++ [c]])).
    cbn [concat]. rewrite concat_app. by rewrite app_assoc. }
  destruct (strip (render dir) (render dir ++ q)) eqn:E; [done|].
  assert (strip (render dir) (render dir ++ q) = Some q) by by apply strip_Some. congruence.
Qed.
End Handle.
