(** PropSane.v: C66, a parsed message fits its C types; C52 for whole messages and RRsets. Spec: SpecSane.v, SpecText.v. *)
From Verif Require Import Base Lib ModelName ModelDescr ModelParse ModelToStr SpecSane SpecText ProofRdata ProofSafe ProofSane ProofHeap8 ProofHeap9 PropParse.

(** ** C66 *)

(** Whatever the packet and whatever the return code, every integer member is within its C type and all names, rdatas and
    options are octets. *)
Theorem C66_types : forall fuel pkt len r M, bytes_ok pkt -> parse_message fuel pkt len = Ok (r, M) -> sane_msg M.
Proof. exact parse_sane. Qed.
Print Assumptions C66_types.

(** The 16 bit counters never wrap: a section has at most as many RRs, RRsets and rdatas per RRset as its header count says. *)
Definition count (pkt : bytes) (i : Z) : Z := nth (Z.to_nat i) pkt 0 * 256 + nth (Z.to_nat (i + 1)) pkt 0.
Definition within (k : Z) (a : rrset_array) : Prop :=
  zlen (a_rrs a) <= k /\ zlen (a_rrsets a) <= k /\ Forall (fun s => zlen (rs_rdatas s) <= k) (a_rrsets a).
Lemma get16_count : forall pkt i v, 0 <= i -> get16 pkt i = Ok v -> v = count pkt i.
Proof.
  intros pkt i v I E. unfold get16 in E. apply bind_ok in E as (a & A & E). apply bind_ok in E as (b & B & E). injection E as <-. unfold count.
  assert (R : forall j c, 0 <= j -> rd pkt j = Ok c -> nth (Z.to_nat j) pkt 0 = c).
  { intros j c J R. unfold rd in R. replace (j <? 0) with false in R by lia. destruct (nth_error pkt (Z.to_nat j)) eqn:N; [|discriminate]. injection R as <-. apply nth_error_nth. exact N. }
  rewrite (R i a), (R (i + 1) b) by (auto; lia). reflexivity.
Qed.
Lemma inv_within : forall k a, arr_inv k a -> within k a.
Proof. intros k a (_ & A & B & C). split; [exact A|]. split; [exact B|]. eapply Forall_impl; [|exact C]. cbv beta. tauto. Qed.
Theorem C66_counts : forall fuel pkt len r M, bytes_ok pkt -> 12 <= len -> parse_message fuel pkt len = Ok (r, M) ->
  within (count pkt 4) (m_qd M) /\ within (count pkt 6) (m_an M) /\ within (count pkt 8) (m_ns M) /\ within (count pkt 10) (m_ar M).
Proof.
  intros fuel pkt len r M B L E. destruct (parse_inv fuel pkt len r M B L E) as (qd & an & ns & ar & A0 & A1 & A2 & A3 & _ & I0 & I1 & I2 & I3).
  apply get16_count in A0, A1, A2, A3; try lia. subst. auto using inv_within.
Qed.
Print Assumptions C66_counts.
Example C66_ex : (count ex_pkt 4, count ex_pkt 6, count ex_pkt 8, count ex_pkt 10) = (zlen (a_rrs (m_qd ex_parsed)), zlen (a_rrs (m_an ex_parsed)), 0, 1).
Proof. vm_compute. reflexivity. Qed.

(** ** C52 for messages and RRsets *)

(** The text of any parsed message is lines of printable ASCII and ends with a newline. *)
Theorem C52_message : forall fuel pkt len r M t, bytes_ok pkt -> parse_message fuel pkt len = Ok (r, M) -> message_to_str M = Ok t ->
  printable_lines t /\ exists s, t = s ++ [10].
Proof. intros fuel pkt len r M t B E ET. eapply message_lines; [eapply parse_sane; [exact B|exact E]|exact ET]. Qed.
Print Assumptions C52_message.
Theorem C52_rrset : forall s sec t, sane_set s -> rrset_to_str s sec = Ok t -> printable_lines t.
Proof. exact set_lines. Qed.
Print Assumptions C52_rrset.
Theorem C52_rr_opt : forall r sec t, sane_rr r -> rr_to_str r sec = Ok t -> exists s, t = s ++ [10] /\ printable_lines s.
Proof. intros r sec t S E. eapply rr_lines; [constructor|exact S|exact E]. Qed.
Print Assumptions C52_rr_opt.
Example C52_message_ex : exists t, message_to_str ex_parsed = Ok t /\ zlen t > 100.
Proof. eexists. split; vm_compute; reflexivity. Qed.
