(** PropFile2.v: C100, what wdns_file_load_names does with any file.  Specification: SpecFile2.v, SpecStrName.v. *)
From Verif Require Import Base Lib ModelName SpecName SpecStrName ModelFile SpecFile2 ProofFile ProofFile2 PropStrName.

(** C100.  For every file there is exactly one way to read it in turns and exactly one delivery of these turns; the names
    of the delivery are what the callback gets, in order, and its end is the end of the call: the code is returned, or
    octets outside the line buffer are read (a turn that starts with NUL), or, after a lone backslash at the end of a
    text, the call fails with a parse error or an overlong name or reads behind the line buffer, without a further name. *)
Theorem C100_every_file : forall t, bytes_ok t ->
  exists cs ns e,
    turns t cs /\ (forall cs', turns t cs' -> cs' = cs) /\
    delivers cs ns e /\ (forall ns' e', delivers cs ns' e' -> ns' = ns /\ e' = e) /\
    (forall r, e = Returned r -> file_load_names (Some t) = Ok (ns, r)) /\
    (e = ReadsBefore -> file_load_names (Some t) = UB OobRead) /\
    (e = ReadsOn -> file_load_names (Some t) = Ok (ns, res_parse_error) \/ file_load_names (Some t) = Ok (ns, res_name_overflow) \/
       file_load_names (Some t) = UB OobRead).
Proof.
  intros t B. destruct (turns_exist t) as (cs & T). destruct (delivers_exists t cs B T) as (ns & e & D). exists cs, ns, e.
  split; [auto|]. split; [intros cs' T'; symmetry; eapply turns_det; eauto|]. split; [auto|].
  split; [intros ns' e' D'; destruct (delivers_det _ _ _ D _ _ D'); auto|].
  assert (K : end_of e ns (file_load_names (Some t))). { unfold file_load_names. apply (load_delivers cs); auto; rewrite zlen_repeat; reflexivity. }
  split; [intros r ->; exact K|]. split; [intros ->; exact K|intros ->; exact K].
Qed.
Print Assumptions C100_every_file.

(** C100.  Success exactly: every turn is passed over or holds a name, and the callback gets the names of all of them. *)
Theorem C100_success_exactly : forall t ns, bytes_ok t ->
  (file_load_names (Some t) = Ok (ns, res_success) <-> exists cs, turns t cs /\ delivers cs ns (Returned res_success)).
Proof.
  intros t ns B. destruct (C100_every_file t B) as (cs & ns' & e & T & TU & D & DU & R & X & Y). split.
  - intros E. exists cs. split; [auto|]. destruct e as [r| |]; [|rewrite X in E by auto; discriminate|destruct (Y eq_refl) as [Q|[Q|Q]]; rewrite Q in E; discriminate].
    rewrite (R r eq_refl) in E. assert (ns' = ns /\ r = res_success) as [-> ->] by (split; congruence). exact D.
  - intros (cs' & T' & D'). apply TU in T'. subst cs'. destruct (DU _ _ D') as [-> E]. apply R. auto.
Qed.
Print Assumptions C100_success_exactly.

(** C100.  No octet outside the line buffer is read when no turn starts with NUL and no text ends in a lone backslash. *)
Theorem C100_no_fault : forall t cs, bytes_ok t -> turns t cs ->
  Forall (fun c => passed_over c \/ exists s, text_of c s /\ ~ cut_escape same s) cs ->
  exists ns r, file_load_names (Some t) = Ok (ns, r) /\ delivers cs ns (Returned r).
Proof.
  intros t cs B T F. destruct (C100_every_file t B) as (cs' & ns & e & T' & TU & D & _ & R & _ & _). apply TU in T. subst cs'.
  assert (K : exists r, e = Returned r).
  { clear - D F. induction D as [|c cs ns e P D IH|r cs|c s ls cs ns e P TX W L D IH|c s cs P TX K|c s cs P TX K|c s cs P TX K]; eauto; inversion F as [|? ? H F']; subst; eauto.
    - exfalso. destruct H as [(x & r' & E & Q)|(s & (NE & CS & H) & _)]; [injection E as <- _; lia|]. destruct s as [|x s]; [congruence|]. unfold c_string in CS. inversion CS; subst.
      destruct H as [H|[[_ H]|[_ (r' & H)]]]; injection H as H _; lia.
    - exfalso. destruct H as [H|(s' & TX' & N)]; [contradiction|]. assert (s' = s) by (eapply text_det; eauto). subst. contradiction. }
  destruct K as (r & ->). exists ns, r. auto.
Qed.
Print Assumptions C100_no_fault.

(** A file with a comment, a blank line, two names and a last name without newline; the turns and the delivery. *)
Example C100_ex_file : exists cs ns, turns [35;120;10; 10; 97;46;66;10; 99] cs /\ delivers cs ns (Returned res_success) /\ ns = [([1;97;1;98;0], 5); ([1;99;0], 3)] /\
  file_load_names (Some [35;120;10; 10; 97;46;66;10; 99]) = Ok (ns, res_success).
Proof.
  assert (E : file_load_names (Some [35;120;10; 10; 97;46;66;10; 99]) = Ok ([([1;97;1;98;0], 5); ([1;99;0], 3)], res_success)) by (vm_compute; reflexivity).
  pose proof E as E'. apply C100_success_exactly in E' as (cs & T & D); [|repeat constructor; lia]. exists cs, [([1;97;1;98;0], 5); ([1;99;0], 3)]. auto.
Qed.
(** A name cut short by a NUL, then a line of 1280 octets that starts a comment and leaves its last octet as a name. *)
Example C100_ex_nul : file_load_names (Some ([97;0;98;10] ++ repeat 35 1279 ++ [99;10])) = Ok ([([1;97;0], 3); ([1;99;0], 3)], res_success).
Proof. vm_compute. reflexivity. Qed.
Example C100_ex_before : turns [0;10] [[0;10]] /\ delivers [[0;10]] [] ReadsBefore /\ file_load_names (Some [0;10]) = UB OobRead.
Proof.
  split; [apply (tn_line [0] [] []); [cbv; intuition discriminate|vm_compute; discriminate|constructor]|]. split; [apply dl_nul|reflexivity].
Qed.
Example C100_ex_on : turns [92;10] [[92;10]] /\ delivers [[92;10]] [] ReadsOn /\ file_load_names (Some [92;10]) = UB OobRead.
Proof.
  split; [apply (tn_line [92] [] []); [cbv; intuition discriminate|vm_compute; discriminate|constructor]|]. split; [|vm_compute; reflexivity].
  assert (CS : c_string [92]) by (repeat constructor; lia).
  apply (dl_cut [92;10] [92]); [intros (x & r & E & H); injection E as <- _; lia|split; [discriminate|split; [auto|auto]]|].
  apply (C90_rejections_exact [92] CS). vm_compute. reflexivity.
Qed.
(** ... and behind a longer comment the reader goes on into what is left of it: a parse error. *)
Example C100_ex_on_error : file_load_names (Some [35;120;120;46;46;10; 92;10]) = Ok ([], res_parse_error).
Proof. vm_compute. reflexivity. Qed.
