(** PropWord.v: the words and addresses read from text, exactly (C146 to C149). *)
From Verif Require Import Base Lib SpecName SpecStrName SpecText SpecFormat SpecRead SpecTables SpecWord Libc ModelName ModelDescr ModelTables ModelFromStr ProofTables ProofRead1 ProofReadSvc ProofInet ProofWord.

(** ** C146: wdns_str_to_rrtype, wdns_str_to_rrclass, for every string *)
Theorem C146_rrtype : forall s n, c_string s ->
  (str_to_rrtype s = n <-> names_code iana_types (lit "TYPE") s n \/ (n = 0 /\ forall m, ~ names_code iana_types (lit "TYPE") s m)).
Proof. intros s n C. apply code_iff; [exact types_ok| |exact C]. change (lit "TYPE") with [84; 89; 80; 69]. repeat (apply Forall_cons || apply Forall_nil); lia. Qed.
Print Assumptions C146_rrtype.
Theorem C146_rrclass : forall s n, c_string s ->
  (str_to_rrclass s = n <-> names_code iana_classes (lit "CLASS") s n \/ (n = 0 /\ forall m, ~ names_code iana_classes (lit "CLASS") s m)).
Proof. intros s n C. apply code_iff; [exact classes_ok| |exact C]. change (lit "CLASS") with [67; 76; 65; 83; 83]. repeat (apply Forall_cons || apply Forall_nil); lia. Qed.
Print Assumptions C146_rrclass.
(** A string names at most one code. *)
Theorem C146_unique : forall s n m, c_string s -> names_code iana_types (lit "TYPE") s n -> names_code iana_types (lit "TYPE") s m -> n = m.
Proof. intros s n m C N M. rewrite <- (proj2 (C146_rrtype s n C)) by auto. apply C146_rrtype; auto. Qed.
Print Assumptions C146_unique.
(** Signs, white space and leading zeros are taken; nothing may follow. *)
Example C146_ex : str_to_rrtype (lit "type +0028") = 28 /\ str_to_rrtype (lit "TYPE-0") = 0 /\ str_to_rrtype (lit "TYPE28 ") = 0 /\ str_to_rrclass (lit "Class 00255") = 255 /\
  names_code iana_types (lit "TYPE") (lit "type +0028") 28 /\ names_code iana_types (lit "TYPE") (lit "AaAa") 28.
Proof.
  assert (C : forall s, forallb (fun c => (0 <? c) && (c <? 256)) s = true -> c_string s) by (intros s F; apply Forall_forall; intros c I; rewrite forallb_forall in F; specialize (F c I); lia).
  split; [vm_compute; reflexivity|]. split; [vm_compute; reflexivity|]. split; [vm_compute; reflexivity|]. split; [vm_compute; reflexivity|].
  split; [destruct (proj1 (C146_rrtype (lit "type +0028") 28 (C (lit "type +0028") eq_refl)) eq_refl) as [H|(H & _)]; [exact H|discriminate]|destruct (proj1 (C146_rrtype (lit "AaAa") 28 (C (lit "AaAa") eq_refl)) eq_refl) as [H|(H & _)]; [exact H|discriminate]].
Qed.

(** ** C147: the names of service parameter keys. 65535 is the answer for all other strings. *)
Theorem C147_key : forall s k, (str_to_svckey s = k /\ k <> 65535) <-> names_key s k.
Proof. exact key_iff. Qed.
Print Assumptions C147_key.
(** strtoul negates modulo 2^64, so the same key has this name too. *)
Example C147_ex : names_key (lit "key7") 7 /\ names_key (lit "key-18446744073709551609") 7 /\ ~ (exists k, names_key (lit "key65535") k) /\ ~ (exists k, names_key (lit "ALPN") k) /\ ~ (exists k, names_key (lit "key") k).
Proof.
  split; [apply key_iff; vm_compute; split; [reflexivity|discriminate]|]. split; [apply key_iff; vm_compute; split; [reflexivity|discriminate]|].
  split; [|split]; intros (k & K); apply key_iff in K as (E & N); apply N; rewrite <- E; vm_compute; reflexivity.
Qed.

(** ** C148: addresses *)
Theorem C148_ipv4 : forall t a, inet_pton4 t = Some a <-> ipv4_text a t /\ bytes_ok a.
Proof. exact pton4_iff. Qed.
Print Assumptions C148_ipv4.
Theorem C148_ipv6 : forall t a, inet_pton6 t = Some a <-> v6_text t a.
Proof. exact pton6_iff. Qed.
Print Assumptions C148_ipv6.
(** The text of an A record in class IN and of an AAAA record: its first word is the address; what follows is not looked at. *)
Lemma skip_to_word : forall w c r, Forall white w -> ~ white c -> skip_space (w ++ c :: r) = c :: r.
Proof. intros w c r F N. rewrite white_skip by auto. cbn [skip_space]. destruct (isspace c) eqn:W; [apply white_iff in W; contradiction|reflexivity]. Qed.
Lemma address_text : forall (d : rdf) w c r t e (f : bytes -> option bytes) (g : bytes -> option bytes), Forall white w -> ~ white c -> word (c :: r) t e ->
  (forall s, parse_text_field d s = let '(t, e) := token s in match f t with None => Err res_parse_error | Some a => Ok (a, g e) end) ->
  parse_text_fields [d] (Some (w ++ c :: r)) = match f t with None => Err res_parse_error | Some a => Ok a end.
Proof.
  intros d w c r t e f g F N W P. cbn [parse_text_fields]. rewrite skip_to_word by auto. rewrite P. assert (S : isspace c = false) by (destruct (isspace c) eqn:S; auto; apply white_iff in S; contradiction).
  apply (word_token c r t e S) in W. rewrite W. destruct (f t) as [a|]; [|reflexivity]. cbn [bind]. destruct (g e); rewrite app_nil_r; reflexivity.
Qed.
Theorem C148_A : forall w c r t e, Forall white w -> ~ white c -> word (c :: r) t e ->
  (exists a, ipv4_text a t /\ bytes_ok a /\ str_to_rdata (w ++ c :: r) 1 1 = Ok a) \/ ((forall a, ipv4_text a t -> ~ bytes_ok a) /\ str_to_rdata (w ++ c :: r) 1 1 = Err res_parse_error).
Proof.
  intros w c r t e F N W. assert (E : str_to_rdata (w ++ c :: r) 1 1 = match inet_pton4 t with None => Err res_parse_error | Some a => Ok a end).
  { change (str_to_rdata (w ++ c :: r) 1 1) with (parse_text_fields [rdf_ipv4] (Some (w ++ c :: r))). apply (address_text rdf_ipv4 w c r t e inet_pton4 Some); auto. }
  rewrite E. destruct (inet_pton4 t) as [a|] eqn:P.
  - left. exists a. apply pton4_iff in P as [T B]. auto.
  - right. split; auto. intros a T B. rewrite (proj2 (pton4_iff t a)) in P by auto. discriminate.
Qed.
Print Assumptions C148_A.
Theorem C148_AAAA : forall w c r t e cl, Forall white w -> ~ white c -> word (c :: r) t e -> cl = 1 ->
  (exists a, v6_text t a /\ str_to_rdata (w ++ c :: r) 28 cl = Ok a) \/ ((forall a, ~ v6_text t a) /\ str_to_rdata (w ++ c :: r) 28 cl = Err res_parse_error).
Proof.
  intros w c r t e cl F N W ->. assert (E : str_to_rdata (w ++ c :: r) 28 1 = match inet_pton6 t with None => Err res_parse_error | Some a => Ok a end).
  { change (str_to_rdata (w ++ c :: r) 28 1) with (parse_text_fields [rdf_ipv6] (Some (w ++ c :: r))). apply (address_text rdf_ipv6 w c r t e inet_pton6 end_or_null); auto. }
  rewrite E. destruct (inet_pton6 t) as [a|] eqn:P.
  - left. exists a. apply pton6_iff in P. auto.
  - right. split; auto. intros a T. apply pton6_iff in T. congruence.
Qed.
Print Assumptions C148_AAAA.
Example C148_ex : v6_text (lit "2001:DB8::192.0.2.33") [32; 1; 13; 184; 0; 0; 0; 0; 0; 0; 0; 0; 192; 0; 2; 33] /\ v6_text (lit "::") (repeat 0 16) /\ ~ (exists a, v6_text (lit "1:2:3:4:5:6:7::8") a /\ zlen a <> 16) /\
  ~ (exists a, v6_text (lit "1::2::3") a) /\ ~ (exists a, v6_text (lit "12345::") a) /\ ~ (exists a, v6_text (lit "1:2:3:4::5:6:7:8") a) /\ ~ (exists a, ipv4_text a (lit "192.0.2.033") /\ bytes_ok a).
Proof.
  split; [apply pton6_iff; vm_compute; reflexivity|]. split; [apply pton6_iff; vm_compute; reflexivity|].
  split; [intros (a & H & N); apply pton6_iff in H; vm_compute in H; try discriminate; injection H as <-; apply N; reflexivity|].
  split; [intros (a & H); apply pton6_iff in H; discriminate|]. split; [intros (a & H); apply pton6_iff in H; discriminate|].
  split; [intros (a & H); apply pton6_iff in H; discriminate|]. intros (a & H & B). assert (E := proj2 (pton4_iff _ a) (conj H B)). discriminate.
Qed.

(** ** C149: the texts of result codes *)
Theorem C149_distinct : forall r q, res_to_str r = res_to_str q -> r = q.
Proof. intros r q. destruct r, q; intros E; try reflexivity; exfalso; vm_compute in E; discriminate. Qed.
Print Assumptions C149_distinct.
Theorem C149_text : forall r, res_to_str r <> [] /\ Forall (fun c => 97 <= c <= 122 \/ c = 32) (res_to_str r).
Proof. intros r. split; [destruct r; discriminate|]. assert (F : forallb (fun c => ((97 <=? c) && (c <=? 122)) || (c =? 32)) (res_to_str r) = true) by (destruct r; vm_compute; reflexivity). apply Forall_forall. intros c I. rewrite forallb_forall in F. specialize (F c I). lia. Qed.
Print Assumptions C149_text.
Example C149_ex : res_to_str res_name_overflow = lit "name overflow" /\ res_to_str res_overflow = lit "overflow".
Proof. split; reflexivity. Qed.
