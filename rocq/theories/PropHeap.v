(** PropHeap.v: C26, and the allocations of C25. *)
From Verif Require Import Base Lib ModelName ModelDescr ModelParse ModelHeap SpecHeap ProofHeap ProofHeap2 ProofHeap3 PropParse.
From Coq Require Import Permutation.

(** ** C26 *)

(** Parsing on the heap: same return code and contents as parse_message, and the live blocks afterwards are those that
    were live before plus those the message owns, each once. *)
Theorem C26_parse_owns : forall fuel pkt len h r M, bytes_ok pkt -> heap_ok h -> parse_message fuel pkt len = Ok (r, M) ->
  exists x h' fp, parse_message_h fuel pkt len h = HOk (r, x) h' /\ own_msg M x fp /\ owns h' (fp ++ h_live h).
Proof.
  intros fuel pkt len h r M HB OK E.
  destruct (message_wp fuel pkt len h (h_live h) r M (fun b h' => exists fp, fst b = r /\ own_msg M (snd b) fp /\ owns h' (fp ++ h_live h)) HB (owns_self h OK) E)
    as ((r', x) & h' & E1 & fp & A & B & C).
  - intros x h' fp A B _. exists fp. auto.
  - cbn [fst snd] in *. subst r'. exists x, h', fp. auto.
Qed.
Print Assumptions C26_parse_owns.

(** Clearing a message frees exactly the blocks it owns. *)
Theorem C26_clear_frees : forall M x fp h L, own_msg M x fp -> owns h (fp ++ L) ->
  exists x' h', clear_message_h x h = HOk x' h' /\ owns h' L /\ own_msg (clear_message M) x' [].
Proof.
  intros M x fp h L OM O. eapply (clear_message_wp M x fp h L (fun x' h' => owns h' L /\ own_msg (clear_message M) x' [])); [exact OM|exact O|]. auto.
Qed.
Print Assumptions C26_clear_frees.

(** Parse, then clear: nothing of the library is left. *)
Theorem C26_parse_clear : forall fuel pkt len h r M, bytes_ok pkt -> heap_ok h -> parse_message fuel pkt len = Ok (r, M) ->
  exists x h1 x' h2, parse_message_h fuel pkt len h = HOk (r, x) h1 /\ clear_message_h x h1 = HOk x' h2 /\ Permutation (h_live h2) (h_live h).
Proof.
  intros fuel pkt len h r M HB OK E. destruct (C26_parse_owns fuel pkt len h r M HB OK E) as (x & h1 & fp & E1 & OM & O1).
  destruct (C26_clear_frees M x fp h1 (h_live h) OM O1) as (x' & h2 & E2 & (_ & P) & _). exists x, h1, x', h2. auto.
Qed.
Print Assumptions C26_parse_clear.

(** No packet whatsoever makes the parser free a block twice, use a freed block or leave the bounds of one of its blocks:
    the only faults are reads of the packet itself (C37), the only other outcome is the endless loop of C27. *)
Theorem C26_no_heap_fault : forall fuel pkt len h, bytes_ok pkt -> heap_ok h ->
  match parse_message_h fuel pkt len h with
  | HOk (r, _) _ => exists M, parse_message fuel pkt len = Ok (r, M)
  | HErr _ _ => False
  | HUB (PureFault f) => parse_message fuel pkt len = UB f
  | HUB _ => False
  | HNoFuel => parse_message fuel pkt len = NoFuel
  end.
Proof.
  intros fuel pkt len h HB OK. pose proof (message_sim fuel pkt len h (h_live h) HB (owns_self h OK)) as S.
  destruct (parse_message fuel pkt len) as [(r, M)|r|f|] eqn:E; cbn [sim] in S.
  - destruct S as ((r', x) & h' & -> & R & _). cbn [fst] in R. subst r'. eauto.
  - exfalso. revert E. clear. unfold parse_message. destruct (len <? 12); [discriminate|].
    assert (G : forall i, (exists v, get16 pkt i = Ok v) \/ get16 pkt i = UB OobRead).
    { intros i. unfold get16. destruct (rd_cases pkt i) as [(b & -> & _)|(-> & _)]; [|auto]. cbn [bind].
      destruct (rd_cases pkt (i + 1)) as [(c & -> & _)|(-> & _)]; cbn [bind]; eauto. }
    assert (N : forall secs p m, parse_sections fuel secs pkt len p m <> Err r).
    { assert (N : forall sec n p m, parse_section fuel n sec pkt len p m <> Err r).
      { intros sec n. induction n as [|n IH]; intros p m; cbn [parse_section]; [discriminate|]. destruct (p =? len); [discriminate|].
        destruct (parse_message_rr fuel sec pkt len p) as [(q, l)|e|f|]; try discriminate. destruct ((rr_type q =? 41) && negb (e_present (m_edns m))); [apply IH|].
        unfold insert_rr. destruct (sec =? 0); cbn [bind]; [apply IH|]. destruct (rr_rdata q); cbn [bind]; [apply IH|discriminate]. }
      intros secs. induction secs as [|(s, c) secs IH]; intros p m; cbn [parse_sections]; [discriminate|].
      specialize (N s (Z.to_nat c) p m). destruct (parse_section fuel (Z.to_nat c) s pkt len p m) as [[q m'|e m']|e|f|]; cbn [bind]; try discriminate; [apply IH|congruence]. }
    repeat match goal with |- bind (get16 pkt ?i) _ = _ -> _ => destruct (G i) as [(? & ->)| ->]; cbn [bind]; [|discriminate] end.
    apply N.
  - rewrite S. reflexivity.
  - rewrite S. reflexivity.
Qed.
Print Assumptions C26_no_heap_fault.

(** Every program that parses packets into wdns_message_t variables and clears them, in any order and any number of times,
    never parsing into a variable that still holds a message: it runs without fault, and at the end the live blocks are
    those live before plus those of the variables that still hold a message. *)
Theorem C26_history : forall fuel ops n s h, heap_ok h -> client fuel ops (repeat None n) s ->
  exists xs h' fp, run fuel ops (repeat hmsg0 n) h = HOk xs h' /\ own_list own_slot s xs fp /\ owns h' (fp ++ h_live h).
Proof.
  intros fuel ops n s h OK C.
  assert (I : own_list own_slot (repeat None n) (repeat hmsg0 n) []).
  { clear. induction n as [|n IH]; cbn [repeat]; [constructor|]. change (@nil (Z * cell)) with (@nil (Z * cell) ++ []) at 1. constructor; [|exact IH].
    cbn. auto 10. }
  destruct (run_wp fuel ops _ s C (repeat hmsg0 n) [] h (h_live h) I (owns_self h OK)) as (xs & h' & E & fp & A & B).
  exists xs, h', fp. auto.
Qed.
Print Assumptions C26_history.

(** If at the end every variable is cleared, the heap is as before. *)
Theorem C26_history_clean : forall fuel ops n h, heap_ok h -> client fuel ops (repeat None n) (repeat None n) ->
  exists xs h', run fuel ops (repeat hmsg0 n) h = HOk xs h' /\ Permutation (h_live h') (h_live h).
Proof.
  intros fuel ops n h OK C. destruct (C26_history fuel ops n _ h OK C) as (xs & h' & fp & E & A & (_ & B)). exists xs, h'. split; [exact E|].
  replace fp with (@nil (Z * cell)) in B; [exact B|].
  clear - A. revert xs fp A. induction n as [|n IH]; intros xs fp A; cbn [repeat] in A; inversion A as [|? ? x m f g W V]; subst; auto.
  destruct W as (-> & _). cbn [app]. eauto.
Qed.
Print Assumptions C26_history_clean.

(** Non-vacuity: the example packet of PropParse.v (question, two records that form one RRset, OPT) in a heap with one
    block of the caller. *)
Definition ex_heap : heap := mkHeap 8 [(7, CBytes [1; 2; 3])].
Lemma ex_heap_ok : heap_ok ex_heap.
Proof. split; [repeat constructor; cbn; auto|]. split; [repeat constructor; cbn; lia|reflexivity]. Qed.
Example C26_ex : exists x h, parse_message_h 0 ex_pkt (zlen ex_pkt) ex_heap = HOk (res_success, x) h /\ zlen (h_live h) = 16.
Proof. eexists. eexists. split; vm_compute; reflexivity. Qed.
Example C26_ex2 : exists x h x' h', parse_message_h 0 ex_pkt (zlen ex_pkt) ex_heap = HOk (res_success, x) h /\ clear_message_h x h = HOk x' h' /\ h_live h' = [(7, CBytes [1; 2; 3])].
Proof. eexists. eexists. eexists. eexists. split; [vm_compute; reflexivity|]. split; vm_compute; reflexivity. Qed.
(** A client history: two variables, a failed parse, a second parse after a clear, a clear of an empty variable. *)
Definition ex_ops : list op :=
  [OParse 0 ex_pkt; OParse 1 (firstn 60 ex_pkt); OParse 1 ex_pkt; OClear 0; OClear 0; OParse 0 ex_pkt; OClear 1; OClear 0].
Example C26_ex3 : client 0 ex_ops (repeat None 2) (repeat None 2).
Proof.
  assert (B : bytes_ok ex_pkt) by apply ex_ok. assert (B2 : bytes_ok (firstn 60 ex_pkt)) by (apply bytes_okb_ok; reflexivity).
  unfold ex_ops. cbn [repeat].
  apply (cl_parse 0 ex_pkt [] [None] res_success ex_parsed); [exact B|apply ex_parse|]. cbn [app].
  eapply (cl_parse 0 (firstn 60 ex_pkt) [Some ex_parsed] [] res_parse_error); [exact B2|vm_compute; reflexivity|]. cbn [app].
  apply (cl_parse 0 ex_pkt [Some ex_parsed] [] res_success ex_parsed); [exact B|apply ex_parse|]. cbn [app].
  apply (cl_clear 0 [] (Some ex_parsed) [Some ex_parsed]). cbn [app].
  apply (cl_clear 0 [] None [Some ex_parsed]). cbn [app].
  apply (cl_parse 0 ex_pkt [] [Some ex_parsed] res_success ex_parsed); [exact B|apply ex_parse|]. cbn [app].
  apply (cl_clear 0 [Some ex_parsed] (Some ex_parsed) []). cbn [app].
  apply (cl_clear 0 [] (Some ex_parsed) [None]). apply cl_nil.
Qed.
(** The rule is needed: parsing into a variable that holds a message leaks all its blocks. *)
Example C26_ex4 : exists xs h, run 0 [OParse 0 ex_pkt; OParse 0 ex_pkt; OClear 0] [hmsg0] (mkHeap 1 []) = HOk xs h /\ zlen (h_live h) = 15.
Proof. eexists. eexists. split; vm_compute; reflexivity. Qed.

(** ** C25: the allocations *)

(** If the parse fails, whatever the packet and wherever it fails, no block allocated by the call is live (none was freed
    twice, see C26_no_heap_fault) and every pointer and counter of the structure is zero. *)
Theorem C25_failed_parse_frees_all : forall fuel pkt len h r x h', bytes_ok pkt -> heap_ok h ->
  parse_message_h fuel pkt len h = HOk (r, x) h' -> r <> res_success ->
  Permutation (h_live h') (h_live h) /\ hm_options x = 0 /\ hm_present x = false /\
  hm_qd x = harr0 /\ hm_an x = harr0 /\ hm_ns x = harr0 /\ hm_ar x = harr0.
Proof.
  intros fuel pkt len h r x h' HB OK E NS. pose proof (C26_no_heap_fault fuel pkt len h HB OK) as S. rewrite E in S. destruct S as (M & EM).
  destruct (message_wp fuel pkt len h (h_live h) r M (fun b h' => exists fp, own_msg M (snd b) fp /\ owns h' (fp ++ h_live h) /\ (r <> res_success -> fp = [])) HB (owns_self h OK) EM)
    as ((r', x') & h1 & E1 & fp & A & B & C).
  - intros y h1 fp A B C. exists fp. auto.
  - rewrite E in E1. injection E1 as <- <- <-. cbn [fst snd] in *. specialize (C NS). subst fp. destruct B as (_ & B). cbn [app] in B. split; [exact B|].
    assert (P : hm_present x = false). { destruct A as (? & ? & ? & ? & _ & _ & _ & _ & P & _). rewrite P. eapply failed_present; eauto. }
    apply own_msg_nil in A as (A1 & A2 & A3 & A4 & A5). auto 10.
Qed.
Print Assumptions C25_failed_parse_frees_all.
Example C25_heap_ex : exists x h, parse_message_h 0 (firstn 60 ex_pkt) 60 ex_heap = HOk (res_parse_error, x) h /\ h_live h = h_live ex_heap /\ h_next h > 20.
Proof. eexists. eexists. split; [vm_compute; reflexivity|]. split; reflexivity. Qed.
