(** PropHeap2.v: C63-C65, what the rest of the API allocates and frees. Spec: SpecHeap.v, SpecHeap2.v, SpecSane.v. *)
From Verif Require Import Base Lib ModelName ModelDescr ModelParse Libc ModelFormat ModelTables ModelRRset ModelToStr ModelFromStr
  ModelHeap SpecHeap SpecRRset ProofRRset ProofHeap ProofHeap2 ProofHeap3 ModelHeap2 ProofHeap4 ProofHeap5 ProofHeap6 ProofHeap7 SpecSane SpecText
  ProofSafe ProofHeap8 ProofSane SpecHeap2 ProofHeap9 PropParse PropHeap.
From Coq Require Import Permutation.

(** ** C63: text to binary *)

(** wdns_str_to_name and wdns_str_to_name_case, any text: on success one new block, which holds the name; on failure the
    live blocks are as before. Nothing is freed twice, used after being freed or accessed out of its bounds: the only
    faults are those of the text itself (C12). *)
Theorem C63_name : forall down s after h, heap_ok h ->
  match str_to_name_h down s after h with
  | HOk (n, p) h' => exists w, str_to_name_gen down s after = Ok (w, n) /\ p <> 0 /\ owns h' ((p, CBytes w) :: h_live h)
  | HErr r h' => str_to_name_gen down s after = Err r /\ owns h' (h_live h)
  | HUB (PureFault f) => str_to_name_gen down s after = UB f
  | HUB _ => False
  | HNoFuel => str_to_name_gen down s after = NoFuel
  end.
Proof.
  intros down s after h OK. pose proof (str_to_name_hsim down s after h (h_live h) (owns_self h OK)) as S.
  destruct (str_to_name_gen down s after) as [(w, n)|r|f|]; cbn [sim] in S.
  - destruct S as ((n', p) & h' & -> & A & B & C). cbn [fst snd] in *. subst n'. exists w. auto.
  - destruct S as (h' & -> & O). auto.
  - rewrite S. reflexivity.
  - rewrite S. reflexivity.
Qed.
Print Assumptions C63_name.

(** wdns_str_to_rdata, any text, type and class. *)
Theorem C63_rdata : forall s t c h, heap_ok h ->
  match str_to_rdata_h s t c h with
  | HOk (p, n) h' => exists d, str_to_rdata s t c = Ok d /\ n = zlen d /\ p <> 0 /\ owns h' ((p, CBytes d) :: h_live h)
  | HErr r h' => str_to_rdata s t c = Err r /\ owns h' (h_live h)
  | HUB (PureFault f) => str_to_rdata s t c = UB f
  | HUB _ => False
  | HNoFuel => str_to_rdata s t c = NoFuel
  end.
Proof.
  intros s t c h OK. pose proof (str_to_rdata_hsim s t c h (h_live h) (owns_self h OK)) as S.
  destruct (str_to_rdata s t c) as [d|r|f|]; cbn [sim] in S.
  - destruct S as ((p, n) & h' & -> & A & B & C). cbn [fst snd] in *. exists d. auto.
  - destruct S as (h' & -> & O). auto.
  - rewrite S. reflexivity.
  - rewrite S. reflexivity.
Qed.
Print Assumptions C63_rdata.
Example C63_ex : exists p h, str_to_rdata_h (lit "10 mail.example.") 15 1 ex_heap = HOk (p, 16) h /\
  h_live h = [(p, CBytes ([0; 10; 4; 109; 97; 105; 108; 7; 101; 120; 97; 109; 112; 108; 101; 0])); (7, CBytes [1; 2; 3])].
Proof. eexists. eexists. split; vm_compute; reflexivity. Qed.
(** A failure after several allocations. *)
Example C63_ex2 : exists h, str_to_rdata_h (lit "0 issue.example. alpn=a,b ipv4hint=x") 65 1 ex_heap = HErr res_parse_error h /\ h_live h = h_live ex_heap /\ h_next h > h_next ex_heap + 4.
Proof. eexists. split; [vm_compute; reflexivity|]. split; vm_compute; reflexivity. Qed.

(** ** C64: binary to text *)

(** The new block: the text and its NUL. Everything else is as it was. *)
Theorem C64_rdata_to_str : forall d n t c h s, heap_ok h -> rdata_to_str d n t c = Ok s -> ~ In 0 s ->
  exists p h', rdata_to_str_h d n t c h = HOk p h' /\ p <> 0 /\ owns h' ((p, CBytes (s ++ [0])) :: h_live h).
Proof.
  intros d n t c h s OK E N. destruct (cstr_cterm s N) as (_ & <-).
  eapply (to_str_wp _ s (h_live h) h (fun p h' => p <> 0 /\ owns h' ((p, CBytes (cterm s)) :: h_live h))); [exact (owns_self h OK)| |auto].
  intros u h1 NU U1. eapply rdata_to_ubuf_wp; [exact E|exact U1|]. intros h2 U2. exact U2.
Qed.
Print Assumptions C64_rdata_to_str.
Theorem C64_rr_to_str : forall r x fp L sec h s, sane_rr r -> own_rr r x fp -> owns h (fp ++ L) -> rr_to_str r sec = Ok s ->
  exists p h', rr_to_str_h x sec h = HOk p h' /\ p <> 0 /\ owns h' ((p, CBytes (s ++ [0])) :: fp ++ L).
Proof.
  intros r x fp L sec h s SR OR O E.
  assert (N : ~ In 0 s). { destruct (rr_lines [] r sec s ltac:(constructor) SR E) as (s' & -> & P). apply lines_no_nul. apply lines_app. split; [exact P|exact newline_lines]. }
  destruct (cstr_cterm s N) as (_ & <-).
  eapply (to_str_wp _ s (fp ++ L) h (fun p h' => p <> 0 /\ owns h' ((p, CBytes (cterm s)) :: fp ++ L))); [exact O| |auto].
  intros u h1 NU U1. eapply rr_ubuf_wp; [exact OR|intros z IZ; apply in_app_iff; left; exact IZ|exact E|exact U1|]. intros h2 U2. exact U2.
Qed.
Print Assumptions C64_rr_to_str.
Theorem C64_rrset_to_str : forall s x fp L sec h t, sane_set s -> own_set s x fp -> owns h (fp ++ L) -> rrset_to_str s sec = Ok t ->
  exists p h', rrset_to_str_h x sec h = HOk p h' /\ p <> 0 /\ owns h' ((p, CBytes (t ++ [0])) :: fp ++ L).
Proof.
  intros s x fp L sec h t SR OR O E. destruct (cstr_cterm t (lines_no_nul _ (set_lines _ _ _ SR E))) as (_ & <-).
  eapply (to_str_wp _ t (fp ++ L) h (fun p h' => p <> 0 /\ owns h' ((p, CBytes (cterm t)) :: fp ++ L))); [exact O| |auto].
  intros u h1 NU U1. eapply rrset_ubuf_wp; [exact OR|intros z IZ; apply in_app_iff; left; exact IZ|exact E|exact U1|]. intros h2 U2. exact U2.
Qed.
Print Assumptions C64_rrset_to_str.
Theorem C64_array_to_str : forall a x fp L sec h t, sane_arr a -> own_arr a x fp -> owns h (fp ++ L) -> rrset_array_to_str a sec = Ok t ->
  exists p h', array_to_str_h x sec h = HOk p h' /\ p <> 0 /\ owns h' ((p, CBytes (t ++ [0])) :: fp ++ L).
Proof.
  intros a x fp L sec h t SA OA O E.
  assert (N : ~ In 0 t). { apply lines_no_nul. eapply rrs_lines; [|apply SA|exact E]. constructor. }
  destruct (cstr_cterm t N) as (_ & <-).
  eapply (to_str_wp _ t (fp ++ L) h (fun p h' => p <> 0 /\ owns h' ((p, CBytes (cterm t)) :: fp ++ L))); [exact O| |auto].
  intros u h1 NU U1. eapply array_ubuf_wp; [exact OA|intros z IZ; apply in_app_iff; left; exact IZ|exact E|exact U1|]. intros h2 U2. exact U2.
Qed.
Print Assumptions C64_array_to_str.
Theorem C64_message_to_str : forall M x fp L h t, sane_msg M -> own_msg M x fp -> owns h (fp ++ L) -> message_to_str M = Ok t ->
  exists p h', message_to_str_h x h = HOk p h' /\ p <> 0 /\ owns h' ((p, CBytes (t ++ [0])) :: fp ++ L).
Proof.
  intros M x fp L h t SM OM O E. destruct (message_lines M t SM E) as (P & _). destruct (cstr_cterm t (lines_no_nul _ P)) as (_ & <-).
  eapply (to_str_wp _ t (fp ++ L) h (fun p h' => p <> 0 /\ owns h' ((p, CBytes (cterm t)) :: fp ++ L))); [exact O| |auto].
  intros u h1 NU U1. eapply message_ubuf_wp; [exact OM|intros z IZ; apply in_app_iff; left; exact IZ| | |exact E|exact U1|].
  - intros p d I X. assert (0 < p) by (eapply owns_ptr; [exact O|apply in_app_iff; left; exact I]). lia.
  - intros d s EO ES. destruct SM as (_ & _ & _ & _ & _ & _ & SO & _). destruct (SO d EO) as (BD & LD).
    destruct (ProofSafe2.opt_safe [] d [] class_un ltac:(constructor) BD ltac:(constructor) LD) as (s' & E' & P'). rewrite app_nil_r in E'. rewrite ES in E'. injection E' as <-.
    apply lines_no_nul. exact P'.
  - intros h2 U2. exact U2.
Qed.
Print Assumptions C64_message_to_str.

(** wdns_print_*: the stream gets exactly the text, the heap is as before. *)
Lemma print_of : forall f t L h, ~ In 0 t -> (exists p h', f h = HOk p h' /\ p <> 0 /\ owns h' ((p, CBytes (t ++ [0])) :: L)) ->
  exists h', print_h f h = HOk t h' /\ owns h' L.
Proof.
  intros f t L h N (p & h1 & E & NP & O). destruct (cstr_cterm t N) as (C & X).
  destruct (print_wp f t L h (fun o h' => o = t /\ owns h' L)) as (o & h' & E' & -> & O').
  - exists p, h1. rewrite X. auto.
  - intros h' O'. auto.
  - exists h'. auto.
Qed.
Theorem C64_print_rr : forall r x fp L sec h s, sane_rr r -> own_rr r x fp -> owns h (fp ++ L) -> rr_to_str r sec = Ok s ->
  exists h', print_h (rr_to_str_h x sec) h = HOk s h' /\ owns h' (fp ++ L).
Proof.
  intros r x fp L sec h s SR OR O E. apply print_of; [|eapply C64_rr_to_str; eauto].
  destruct (rr_lines [] r sec s ltac:(constructor) SR E) as (s' & -> & P). apply lines_no_nul. apply lines_app. split; [exact P|exact newline_lines].
Qed.
Print Assumptions C64_print_rr.
Theorem C64_print_rrset : forall s x fp L sec h t, sane_set s -> own_set s x fp -> owns h (fp ++ L) -> rrset_to_str s sec = Ok t ->
  exists h', print_h (rrset_to_str_h x sec) h = HOk t h' /\ owns h' (fp ++ L).
Proof. intros s x fp L sec h t SR OR O E. apply print_of; [exact (lines_no_nul _ (set_lines _ _ _ SR E))|eapply C64_rrset_to_str; eauto]. Qed.
Print Assumptions C64_print_rrset.
Theorem C64_print_array : forall a x fp L sec h t, sane_arr a -> own_arr a x fp -> owns h (fp ++ L) -> rrset_array_to_str a sec = Ok t ->
  exists h', print_h (array_to_str_h x sec) h = HOk t h' /\ owns h' (fp ++ L).
Proof.
  intros a x fp L sec h t SA OA O E. apply print_of; [|eapply C64_array_to_str; eauto]. apply lines_no_nul. eapply rrs_lines; [|apply SA|exact E]. constructor.
Qed.
Print Assumptions C64_print_array.
Theorem C64_print_message : forall M x fp L h t, sane_msg M -> own_msg M x fp -> owns h (fp ++ L) -> message_to_str M = Ok t ->
  exists h', print_h (message_to_str_h x) h = HOk t h' /\ owns h' (fp ++ L).
Proof. intros M x fp L h t SM OM O E. apply print_of; [exact (lines_no_nul _ (proj1 (message_lines M t SM E)))|eapply C64_message_to_str; eauto]. Qed.
Print Assumptions C64_print_message.

(** The whole life of a message: parse, print, clear. Any packet whose message has a text (C51 says when). *)
Theorem C64_parse_print_clear : forall fuel pkt len h r M t, bytes_ok pkt -> heap_ok h -> parse_message fuel pkt len = Ok (r, M) -> message_to_str M = Ok t ->
  exists x h1 h2 x' h3, parse_message_h fuel pkt len h = HOk (r, x) h1 /\ print_h (message_to_str_h x) h1 = HOk t h2 /\
    clear_message_h x h2 = HOk x' h3 /\ Permutation (h_live h3) (h_live h).
Proof.
  intros fuel pkt len h r M t B OK E ET. destruct (C26_parse_owns fuel pkt len h r M B OK E) as (x & h1 & fp & E1 & OM & O1).
  destruct (C64_print_message M x fp (h_live h) h1 t (parse_sane fuel pkt len r M B E) OM O1 ET) as (h2 & E2 & O2).
  destruct (C26_clear_frees M x fp h2 (h_live h) OM O2) as (x' & h3 & E3 & (_ & P) & _). exists x, h1, h2, x', h3. auto.
Qed.
Print Assumptions C64_parse_print_clear.
Example C64_ex : exists t x h1 h2 x' h3, message_to_str ex_parsed = Ok t /\ zlen t > 100 /\ parse_message_h 0 ex_pkt (zlen ex_pkt) ex_heap = HOk (res_success, x) h1 /\
  print_h (message_to_str_h x) h1 = HOk t h2 /\ clear_message_h x h2 = HOk x' h3 /\ h_live h3 = h_live ex_heap.
Proof. eexists. eexists. eexists. eexists. eexists. eexists. split; [vm_compute; reflexivity|]. split; [vm_compute; reflexivity|]. split; [vm_compute; reflexivity|]. split; [vm_compute; reflexivity|]. split; vm_compute; reflexivity. Qed.

(** ** C65: RRset operations *)

(** Deserialising any octets: an RRset with its own new blocks, or the heap as before. *)
Theorem C65_deserialize : forall big buf h, bytes_ok buf -> heap_ok h ->
  (exists o s x fp h', deserialize_rrset big buf (zlen buf) = Ok (res_success, o) /\ SpecRRset.holds o s /\
     deserialize_h big buf (zlen buf) h = HOk x h' /\ own_set s x fp /\ owns h' (fp ++ h_live h)) \/
  (exists o h', deserialize_rrset big buf (zlen buf) = Ok (res_overflow, o) /\ deserialize_h big buf (zlen buf) h = HErr res_overflow h' /\ owns h' (h_live h)).
Proof.
  intros big buf h B OK. pose proof (deserialize_hsim big buf (zlen buf) h (h_live h) B (owns_self h OK)) as D.
  pose proof (deserialize_sound big buf [] B) as S. rewrite app_nil_r in S. destruct S as [(s & r & W & _ & E)|(o & E & _)]; rewrite E in D; cbn [dsim] in D.
  - destruct D as (x & h' & E' & s' & fp & H & OS & O). left. exists (the_obj s), s', x, fp, h'. auto 10.
  - destruct D as (h' & E' & O). right. exists o, h'. auto.
Qed.
Print Assumptions C65_deserialize.
(** Sorting moves pointers inside the array: the same blocks at the same addresses. *)
Theorem C65_sort : forall s x fp h L, own_set s x fp -> owns h (fp ++ L) ->
  exists h' fp', sort_h x h = HOk tt h' /\ own_set (sort_rrset s) x fp' /\ Permutation (map fst fp') (map fst fp) /\ owns h' (fp' ++ L).
Proof. intros s x fp h L OS O. destruct (sort_h_wp s x fp h L OS O) as ([] & h' & E & fp' & A & B & C). exists h', fp'. auto. Qed.
Print Assumptions C65_sort.
Theorem C65_downcase : forall s x fp h L r s', own_set s x fp -> owns h (fp ++ L) -> downcase_rrset s = Ok (r, s') ->
  exists h' fp', downcase_h x h = HOk r h' /\ own_set s' x fp' /\ owns h' (fp' ++ L).
Proof. intros s x fp h L r s' OS O E. destruct (downcase_h_wp s x fp h L r s' OS O E) as (r' & h' & EH & -> & fp' & A & C). exists h', fp'. auto. Qed.
Print Assumptions C65_downcase.
Theorem C65_serialize : forall big cap s x fp h L out, own_set s x fp -> owns h (fp ++ L) -> serialize_rrset big cap s = Ok out -> serialize_h big cap x h = HOk out h.
Proof. exact serialize_h_ok. Qed.
Print Assumptions C65_serialize.

(** Every program that deserialises, sorts, lower-cases, serialises, prints and clears RRsets in any order. *)
Theorem C65_history : forall ops n s out h, heap_ok h -> sets_client ops (repeat None n) s out ->
  exists xs h' fp, run_sets ops (repeat hset_zero n) h = HOk (xs, out) h' /\ own_list own_var s xs fp /\ owns h' (fp ++ h_live h).
Proof.
  intros ops n s out h OK C.
  assert (I : own_list own_var (repeat None n) (repeat hset_zero n) []).
  { clear. induction n as [|n IH]; cbn [repeat]; [constructor|]. change (@nil (Z * cell)) with (@nil (Z * cell) ++ []) at 1. constructor; [|exact IH]. cbn. auto 10. }
  destruct (run_sets_wp ops _ s out C (repeat hset_zero n) [] h (h_live h) I (owns_self h OK)) as ((xs & o) & h' & E & X & fp & A & B).
  cbn [fst snd] in *. subst o. exists xs, h', fp. auto.
Qed.
Print Assumptions C65_history.
Theorem C65_history_clean : forall ops n out h, heap_ok h -> sets_client ops (repeat None n) (repeat None n) out ->
  exists xs h', run_sets ops (repeat hset_zero n) h = HOk (xs, out) h' /\ Permutation (h_live h') (h_live h).
Proof.
  intros ops n out h OK C. destruct (C65_history ops n _ out h OK C) as (xs & h' & fp & E & A & (_ & B)). exists xs, h'. split; [exact E|].
  replace fp with (@nil (Z * cell)) in B; [exact B|].
  clear - A. revert xs fp A. induction n as [|n IH]; intros xs fp A; cbn [repeat] in A; inversion A as [|? ? x m f g W V]; subst; auto.
  destruct W as (-> & _). cbn [app]. eauto.
Qed.
Print Assumptions C65_history_clean.

Definition ex_set : rrset := {| rs_name := [1; 65; 0]; rs_type := 15; rs_class := 1; rs_ttl := 60; rs_rdatas := [[0; 2; 1; 66; 0]; [0; 1; 0]] |}.
Definition ex_down : rrset := {| rs_name := [1; 97; 0]; rs_type := 15; rs_class := 1; rs_ttl := 60; rs_rdatas := [[0; 1; 0]; [0; 2; 1; 98; 0]] |}.
Lemma ex_set_wf : wf_rrset ex_set.
Proof. unfold wf_rrset. cbn. repeat split; try (unfold zlen; cbn; lia); repeat constructor; unfold is_byte, zlen; cbn; lia. Qed.
(** Two variables: a failed deserialisation, a successful one, sort, lower-case, print, serialise, two clears. *)
Definition ex_sops : list sop :=
  [SDeser 1 true (firstn 10 (serial true ex_set)); SDeser 0 true (serial true ex_set); SSort 0; SDown 0; SPrint 0 1; SSer 0 true 40; SClear 0; SClear 0].
Example C65_ex : sets_client ex_sops (repeat None 2) (repeat None 2)
  [lit "a. 60 IN MX 1 .
a. 60 IN MX 2 b.
"; serial true ex_down].
Proof.
  assert (B : bytes_ok (serial true ex_set)) by (apply bytes_okb_ok; reflexivity).
  assert (B2 : bytes_ok (firstn 10 (serial true ex_set))) by (apply bytes_okb_ok; reflexivity).
  unfold ex_sops. cbn [repeat].
  eapply (sc_deser_fail true (firstn 10 (serial true ex_set)) [None] [] res_overflow); [exact B2|vm_compute; reflexivity|discriminate|]. cbn [app].
  apply (sc_deser true (serial true ex_set) [] [None] (the_obj ex_set) ex_set); [exact B|vm_compute; reflexivity|apply holds_iff; reflexivity|]. cbn [app].
  apply (sc_sort [] [None] ex_set). cbn [app].
  apply (sc_down [] [None] (sort_rrset ex_set) res_success ex_down); [vm_compute; reflexivity|]. cbn [app].
  apply (sc_print [] [None] ex_down 1); [vm_compute; reflexivity|]. cbn [app].
  apply (sc_ser [] [None] ex_down true 40); [vm_compute; reflexivity|]. cbn [app].
  apply (sc_clear [] [None] (Some ex_down)). cbn [app].
  apply (sc_clear [] [None] None). apply sc_nil.
Qed.
Example C65_ex2 : exists xs out h, run_sets ex_sops (repeat hset_zero 2) ex_heap = HOk (xs, out) h /\ h_live h = h_live ex_heap /\ h_next h > h_next ex_heap + 5.
Proof. eexists. eexists. eexists. split; [vm_compute; reflexivity|]. split; vm_compute; reflexivity. Qed.
