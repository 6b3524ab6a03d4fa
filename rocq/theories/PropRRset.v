(** PropRRset.v: C31-C36, RRset serialisation, sorting and case-folding. Spec: SpecRRset.v. *)
From Coq Require Import Permutation Sorted.
From Verif Require Import Base Lib SpecName SpecMessage SpecEncode SpecRRset ModelName ModelDescr ModelParse ModelRRset.
From Verif Require Import ProofRRset ProofDowncase.

Definition ex_rrset : rrset := {| rs_name := [1; 65; 0]; rs_type := 15; rs_class := 1; rs_ttl := 4294967295;
  rs_rdatas := [[0; 1; 1; 66; 0]; []; [0; 0; 0]] |}.
Lemma ex_rrset_wf : wf_rrset ex_rrset.
Proof. unfold wf_rrset. cbn. repeat split; try (unfold zlen; cbn; lia); repeat constructor; unfold is_byte, zlen; cbn; lia. Qed.

(** ** C31: the size reported is the number of octets written; a buffer of that size is enough, one octet less is not. *)
Theorem C31_size_exact : forall big s, wf_rrset s ->
  exists out, serialize_rrset big (serialize_size s) s = Ok out /\ zlen out = serialize_size s /\ out = serial big s.
Proof.
  intros big s W. exists (serial big s). rewrite (serialize_size_spec big). split; [apply serialize_spec; auto; lia|auto].
Qed.
Print Assumptions C31_size_exact.
Theorem C31_size_number : forall s, serialize_size s = 11 + zlen (rs_name s) + fold_right (fun d n => 2 + zlen d + n) 0 (rs_rdatas s).
Proof.
  intros s. rewrite (serialize_size_spec true). unfold serial. zl. rewrite !zlen_host.
  assert (zlen (concat (map (serial_rdata true) (rs_rdatas s))) = fold_right (fun d n => 2 + zlen d + n) 0 (rs_rdatas s)) as ->; [|lia].
  induction (rs_rdatas s) as [|d l IH]; cbn [map concat fold_right]; auto. unfold serial_rdata at 1. zl. rewrite zlen_host, IH. lia.
Qed.
Print Assumptions C31_size_number.
Theorem C31_size_minimal : forall big s cap, wf_rrset s -> (exists out, serialize_rrset big cap s = Ok out) <-> serialize_size s <= cap.
Proof.
  intros big s cap W. split; [|intros H; exists (serial big s); apply serialize_spec; auto; rewrite <- (serialize_size_spec big); auto].
  intros (out & E).
  assert (G : forall c o, serialize_rrset big c s = Ok o -> zlen o <= c /\ (forall c', c <= c' -> serialize_rrset big c' s = Ok o)).
  { assert (P : forall c c' a b r, push c a b = Ok r -> c <= c' -> push c' a b = Ok r) by (intros c c' a b r X L; apply push_inv in X as [-> X]; apply push_ok; lia).
    assert (R : forall rds c a o, zlen a <= c -> serialize_rdatas big c a rds = Ok o -> zlen o <= c /\ (forall c', c <= c' -> serialize_rdatas big c' a rds = Ok o)).
    { induction rds as [|d rds IH]; intros c a o L X; cbn [serialize_rdatas] in *; [injection X as <-; auto|].
      apply bind_ok in X as (a1 & X1 & X). apply bind_ok in X as (a2 & X2 & X). pose proof (push_inv _ _ _ _ X2) as [-> L2]. apply IH in X as [X3 X4]; [|zl; lia].
      split; auto. intros c' L'. rewrite (P _ _ _ _ _ X1 L'). cbn [bind]. rewrite (P _ _ _ _ _ X2 L'). cbn [bind]. auto. }
    intros c o X. unfold serialize_rrset in *. apply bind_ok in X as (a1 & X1 & X). apply bind_ok in X as (a2 & X2 & X). apply bind_ok in X as (a3 & X3 & X).
    apply bind_ok in X as (a4 & X4 & X). apply bind_ok in X as (a5 & X5 & X). apply bind_ok in X as (a6 & X6 & X).
    pose proof (push_inv _ _ _ _ X6) as [-> L6]. apply R in X as [X7 X8]; [|zl; lia]. split; auto. intros c' L'.
    rewrite (P _ _ _ _ _ X1 L'). cbn [bind]. rewrite (P _ _ _ _ _ X2 L'). cbn [bind]. rewrite (P _ _ _ _ _ X3 L'). cbn [bind].
    rewrite (P _ _ _ _ _ X4 L'). cbn [bind]. rewrite (P _ _ _ _ _ X5 L'). cbn [bind]. rewrite (P _ _ _ _ _ X6 L'). cbn [bind]. auto. }
  destruct (G _ _ E) as [G1 G2]. specialize (G2 (Z.max cap (zlen (serial big s))) ltac:(lia)).
  rewrite serialize_spec in G2 by (auto; lia). injection G2 as <-. rewrite (serialize_size_spec big). exact G1.
Qed.
Print Assumptions C31_size_minimal.
Example C31_ex : wf_rrset ex_rrset /\ serialize_size ex_rrset = 28 /\ exists out, serialize_rrset false 28 ex_rrset = Ok out /\ zlen out = 28.
Proof. split; [exact ex_rrset_wf|]. split; [reflexivity|]. eexists. split; vm_compute; reflexivity. Qed.

(** ** C32: round-trip, whatever follows the serialised octets, on either byte order. *)
Theorem C32_roundtrip : forall big s rest, wf_rrset s -> exists out, serialize_rrset big (serialize_size s) s = Ok out /\
  exists o, deserialize_rrset big (out ++ rest) (zlen (out ++ rest)) = Ok (res_success, o) /\ holds o s.
Proof.
  intros big s rest W. destruct (C31_size_exact big s W) as (out & E & _ & ->). exists (serial big s). split; auto.
  exists (the_obj s). split; [|apply holds_iff; auto]. apply deserialize_complete; auto. zl. pose proof (zlen_nonneg _ rest). lia.
Qed.
Print Assumptions C32_roundtrip.
(** Different RRsets never have the same serialised form, even as prefixes. *)
Theorem C32_injective : forall big s s' r r', wf_rrset s -> wf_rrset s' -> serial big s ++ r = serial big s' ++ r' -> s = s'.
Proof. intros. eapply serial_inj; eauto. Qed.
Print Assumptions C32_injective.
Example C32_ex : wf_rrset ex_rrset /\ forall big, exists out, serialize_rrset big (serialize_size ex_rrset) ex_rrset = Ok out /\
  exists o, deserialize_rrset big (out ++ [7]) (zlen (out ++ [7])) = Ok (res_success, o) /\ holds o ex_rrset.
Proof. split; [exact ex_rrset_wf|]. intros big. apply C32_roundtrip, ex_rrset_wf. Qed.

(** ** C33: every buffer (memory = exactly the sz octets) gives success or overflow and no out-of-bounds access; success
    exactly on the buffers that begin with a serialised RRset; on overflow the structure is cleared. *)
Theorem C33_total : forall big buf, bytes_ok buf ->
  (exists o, deserialize_rrset big buf (zlen buf) = Ok (res_success, o)) \/
  (exists o, deserialize_rrset big buf (zlen buf) = Ok (res_overflow, o) /\ cleared o).
Proof.
  intros big buf B. pose proof (deserialize_sound big buf [] B) as D. rewrite app_nil_r in D. destruct D as [(s & r & _ & _ & E)|E]; [left; eauto|right; exact E].
Qed.
Print Assumptions C33_total.
Theorem C33_success_iff : forall big buf o, bytes_ok buf ->
  (deserialize_rrset big buf (zlen buf) = Ok (res_success, o) <-> exists s rest, wf_rrset s /\ buf = serial big s ++ rest /\ holds o s).
Proof.
  intros big buf o B. split.
  - intros E. pose proof (deserialize_sound big buf [] B) as D. rewrite app_nil_r in D. destruct D as [(s & r & W & X & E')|(c & E' & _)]; [|congruence].
    exists s, r. rewrite E in E'. injection E' as ->. split; auto. split; auto. apply holds_iff. auto.
  - intros (s & r & W & -> & H). apply holds_iff in H. subst o. apply deserialize_complete; auto. zl. pose proof (zlen_nonneg _ r). lia.
Qed.
Print Assumptions C33_success_iff.
(** Octets behind the declared size are never looked at. *)
Theorem C33_stays_inside : forall big buf x, bytes_ok buf -> deserialize_rrset big (buf ++ x) (zlen buf) = deserialize_rrset big buf (zlen buf) \/
  exists o o', deserialize_rrset big (buf ++ x) (zlen buf) = Ok (res_overflow, o) /\ deserialize_rrset big buf (zlen buf) = Ok (res_overflow, o') /\ cleared o /\ cleared o'.
Proof.
  intros big buf x B. pose proof (deserialize_sound big buf [] B) as D. rewrite app_nil_r in D. pose proof (deserialize_sound big buf x B) as D'.
  destruct D as [(s & r & W & E & D)|(c & D & C)], D' as [(s' & r' & W' & E' & D')|(c' & D' & C')].
  - left. rewrite D, D'. rewrite E in E'. apply serial_inj in E' as [-> _]; auto.
  - exfalso. pose proof (deserialize_complete big s (r ++ x) (zlen buf) W) as K. rewrite app_assoc, <- E in K. rewrite K in D'; [discriminate|]. rewrite E. zl. pose proof (zlen_nonneg _ r). lia.
  - exfalso. pose proof (deserialize_complete big s' r' (zlen buf) W') as K. rewrite <- E' in K. rewrite K in D; [discriminate|]. rewrite E'. zl. pose proof (zlen_nonneg _ r'). lia.
  - right. eauto 8.
Qed.
Print Assumptions C33_stays_inside.
Theorem C33_proper_prefix_overflows : forall big s pre suf, wf_rrset s -> serial big s = pre ++ suf -> suf <> [] ->
  exists o, deserialize_rrset big pre (zlen pre) = Ok (res_overflow, o) /\ cleared o.
Proof.
  intros big s pre suf W E N. assert (B : bytes_ok pre).
  { assert (bytes_ok (serial big s)) as X; [|rewrite E in X; apply bytes_ok_app in X; tauto].
    unfold serial. pose proof (wf_rrset_len _ W) as [L1 L2]. destruct W as (Bn & _ & _ & _ & _ & _ & R).
    repeat (apply bytes_ok_app; split); try apply host_bytes; [constructor; auto|].
    clear -R. induction R as [|d l [Bd _] R IH]; cbn [map concat]; [constructor|]. unfold serial_rdata at 1. repeat (apply bytes_ok_app; split); auto. apply host_bytes. }
  pose proof (deserialize_sound big pre [] B) as D. rewrite app_nil_r in D. destruct D as [(s' & r & W' & -> & _)|D]; [|exact D].
  exfalso. apply N. rewrite <- app_assoc in E. rewrite <- (app_nil_r (serial big s)) in E. apply serial_inj in E as [_ E]; auto. symmetry in E. apply app_eq_nil in E. tauto.
Qed.
Print Assumptions C33_proper_prefix_overflows.
Theorem C33_reserialise : forall big buf o, bytes_ok buf -> deserialize_rrset big buf (zlen buf) = Ok (res_success, o) ->
  exists s, holds o s /\ serialize_size s <= zlen buf /\
    serialize_rrset big (serialize_size s) s = Ok (firstn (Z.to_nat (serialize_size s)) buf).
Proof.
  intros big buf o B E. apply C33_success_iff in E as (s & r & W & -> & H); auto. exists s. split; auto. rewrite (serialize_size_spec big).
  split; [zl; pose proof (zlen_nonneg _ r); lia|]. rewrite firstn_zlen_app. apply serialize_spec; auto. lia.
Qed.
Print Assumptions C33_reserialise.
Example C33_ex : exists o o', deserialize_rrset false [1; 0; 1; 0; 1; 0; 5; 0; 0; 0; 1; 0; 2; 0; 8; 9] 16 = Ok (res_success, o) /\ o_rdatas o = Some [Some [8; 9]] /\
  deserialize_rrset false [1; 0; 1; 0; 1; 0; 5; 0; 0; 0; 1; 0; 2; 0; 8] 15 = Ok (res_overflow, o') /\ o_rdatas o' = None.
Proof. do 2 eexists. repeat split; reflexivity. Qed.

(** ** C34: for every qsort that meets ISO C (permutation, ascending by rdata_cmp) the result is the one of the model, hence
    the sorted rdatas depend only on the multiset of rdatas. The comparison is a total order, as qsort requires. *)
Theorem C34_comparison_is_total_order :
  (forall a b, rdata_cmp a b <= 0 <-> rdata_le a b) /\ (forall a b, rdata_cmp a b <= 0 <-> 0 <= rdata_cmp b a) /\
  (forall a b c, rdata_cmp a b <= 0 -> rdata_cmp b c <= 0 -> rdata_cmp a c <= 0) /\ (forall a b, rdata_cmp a b = 0 <-> a = b).
Proof.
  split; [exact rdata_cmp_le|]. split; [exact rdata_cmp_anti|]. split.
  - intros a b c. rewrite !rdata_cmp_le. apply rdata_le_trans.
  - intros a b. split.
    + intros E. apply rdata_le_antisym; apply rdata_cmp_le; [lia|]. apply rdata_cmp_anti. lia.
    + intros ->. pose proof (rdata_cmp_anti b b). assert (rdata_cmp b b <= 0) by (apply rdata_cmp_le; right; auto). lia.
Qed.
Print Assumptions C34_comparison_is_total_order.
Theorem C34_sorted_permutation : forall s, Permutation (rs_rdatas s) (rs_rdatas (sort_rrset s)) /\ StronglySorted rdata_le (rs_rdatas (sort_rrset s)).
Proof. intros s. rewrite sort_rrset_rdatas. split; [apply qsort_perm|apply qsort_sorted]. Qed.
Print Assumptions C34_sorted_permutation.
Theorem C34_any_qsort : forall l l', qsort_result rdata_cmp l l' <-> l' = qsort rdata_cmp l.
Proof. exact qsort_any. Qed.
Print Assumptions C34_any_qsort.
Theorem C34_order_independent : forall s s', Permutation (rs_rdatas s) (rs_rdatas s') -> rs_rdatas (sort_rrset s) = rs_rdatas (sort_rrset s').
Proof.
  intros s s' P. rewrite !sort_rrset_rdatas. apply sorted_unique; try apply qsort_sorted. eapply Permutation_trans; [symmetry; apply qsort_perm|]. eapply Permutation_trans; [exact P|apply qsort_perm].
Qed.
Print Assumptions C34_order_independent.
Theorem C34_idempotent : forall s, sort_rrset (sort_rrset s) = sort_rrset s.
Proof.
  intros s. assert (E : rs_rdatas (sort_rrset (sort_rrset s)) = rs_rdatas (sort_rrset s)).
  { apply C34_order_independent. symmetry. apply C34_sorted_permutation. }
  unfold sort_rrset at 1. unfold sort_rrset at 1 in E. cbn [rs_rdatas] in E. rewrite E. reflexivity.
Qed.
Print Assumptions C34_idempotent.
Theorem C34_rest_unchanged : forall s, rs_name (sort_rrset s) = rs_name s /\ rs_type (sort_rrset s) = rs_type s /\ rs_class (sort_rrset s) = rs_class s /\ rs_ttl (sort_rrset s) = rs_ttl s.
Proof. repeat split. Qed.
Print Assumptions C34_rest_unchanged.
Example C34_ex : rs_rdatas (sort_rrset ex_rrset) = [[]; [0; 0; 0]; [0; 1; 1; 66; 0]].
Proof. reflexivity. Qed.

(** ** C35 *)
(** For every memory, length, type and class, whatever the return code: the memory keeps its length and every octet is
    unchanged or a capital letter turned into the small one. *)
Theorem C35_only_letters : forall m len t c r m', downcase_rdata m len t c = Ok (r, m') -> Forall2 lowered m m'.
Proof. exact downcase_low. Qed.
Print Assumptions C35_only_letters.
(** Types outside the RFC 4034 list: nothing changes. *)
Theorem C35_other_types_untouched : forall m len t c, ~ In t rfc4034_types -> downcase_rdata m len t c = Ok (res_success, m).
Proof.
  intros m len t c N. rewrite downcase_unfold. unfold dcase_descr. destruct (existsb _ _) eqn:E; auto. apply dcase_types_iff in E. contradiction.
Qed.
Print Assumptions C35_other_types_untouched.
(** Well-formed rdata of the other types: exactly the names are folded. Missing: A6 (type 38) and names with a zero octet
    inside a label, for which the claim is false (below). *)
Theorem C35_names_folded_partial : forall t c vs x, wf_values (format_of t c) vs -> nonzero_names vs -> In t rfc4034_types -> t <> 38 ->
  downcase_rdata (canon vs ++ x) (zlen (canon vs)) t c = Ok (res_success, canon (map lower_val vs) ++ x).
Proof. exact downcase_exact. Qed.
Print Assumptions C35_names_folded_partial.
Example C35_ex : wf_values (format_of 15 1) [VOctets [0; 65]; VName [[65; 66]; [67]]] /\ nonzero_names [VOctets [0; 65]; VName [[65; 66]; [67]]] /\
  downcase_rdata [0; 65; 2; 65; 66; 1; 67; 0] 8 15 1 = Ok (res_success, [0; 65; 2; 97; 98; 1; 99; 0]).
Proof.
  split; [|split; [|reflexivity]].
  - change (format_of 15 1) with [FFixed 2; FName]. apply wv_octets; try reflexivity; try discriminate; [repeat constructor; cbn; lia|].
    apply wv_name; [|constructor]. split; [|cbn; discriminate]. repeat constructor; unfold zlen; cbn; lia.
  - repeat constructor; cbn; lia.
Qed.
(** A6 rdata with prefix length 0 and an address that contains 0x41: the address octet is changed. *)
Theorem C35_a6_refuted : exists vs m, wf_values (format_of 38 1) vs /\ nonzero_names vs /\ In 38 rfc4034_types /\
  downcase_rdata (canon vs) (zlen (canon vs)) 38 1 = Ok (res_success, m) /\ m <> canon (map lower_val vs).
Proof.
  exists [VOctets [0; 65; 1; 2; 3; 4; 5; 6; 7; 8; 9; 10; 11; 12; 13; 14; 0]], [0; 97; 1; 2; 3; 4; 5; 6; 7; 8; 9; 10; 11; 12; 13; 14; 0]. split; [|split; [constructor; [exact I|constructor]|split; [cbn; tauto|split; [vm_compute; reflexivity|discriminate]]]].
  change (format_of 38 1) with [FPrefix6; FName]. apply wv_octets; try discriminate; [|repeat constructor; cbn; lia|constructor].
  exists 0, [65; 1; 2; 3; 4; 5; 6; 7; 8; 9; 10; 11; 12; 13; 14; 0]. split; [lia|]. split; reflexivity.
Qed.
Print Assumptions C35_a6_refuted.
(** An A6 record whose prefix length is over 16 is rejected. *)
Theorem C35_a6_rejected_refuted : exists vs, wf_values (format_of 38 1) vs /\ nonzero_names vs /\
  downcase_rdata (canon vs) (zlen (canon vs)) 38 1 = Ok (res_parse_error, canon vs) /\ canon (map lower_val vs) <> canon vs.
Proof.
  exists [VOctets [128]; VName [[65]]]. split; [|split; [repeat constructor; cbn; lia|split; [vm_compute; reflexivity|discriminate]]].
  change (format_of 38 1) with [FPrefix6; FName]. apply wv_octets; try discriminate; [|repeat constructor; cbn; lia|].
  - exists 128, []. split; [lia|]. split; reflexivity.
  - apply wv_name; [|constructor]. split; [|cbn; discriminate]. repeat constructor; unfold zlen; cbn; lia.
Qed.
Print Assumptions C35_a6_rejected_refuted.
(** A zero octet inside a label is taken for the end of the name: for NXT the call succeeds and the rest of the name keeps
    its capitals. *)
Theorem C35_zero_octet_refuted : exists vs, wf_values (format_of 30 1) vs /\ In 30 rfc4034_types /\
  downcase_rdata (canon vs) (zlen (canon vs)) 30 1 = Ok (res_success, canon vs) /\ canon (map lower_val vs) <> canon vs.
Proof.
  exists [VName [[0; 65]]; VOctets [2]]. split; [|split; [cbn; tauto|split; [vm_compute; reflexivity|discriminate]]].
  change (format_of 30 1) with [FName; FRest]. apply wv_name; [split; [|cbn; discriminate]; repeat constructor; unfold zlen; cbn; lia|].
  apply wv_octets; try discriminate; [exact I|repeat constructor; cbn; lia|reflexivity|constructor].
Qed.
Print Assumptions C35_zero_octet_refuted.

(** wdns_downcase_rrset: owner name and all rdatas. *)
Theorem C35_rrset_partial : forall s vss, rs_rdatas s = map canon vss -> In (rs_type s) rfc4034_types -> rs_type s <> 38 ->
  Forall (fun vs => wf_values (format_of (rs_type s) (rs_class s)) vs /\ nonzero_names vs) vss ->
  downcase_rrset s = Ok (res_success, {| rs_name := map dc (rs_name s); rs_type := rs_type s; rs_class := rs_class s; rs_ttl := rs_ttl s;
    rs_rdatas := map (fun vs => canon (map lower_val vs)) vss |}).
Proof.
  intros s vss E I N F. unfold downcase_rrset, downcase_name. rewrite E.
  assert (D : forall l, downcase_loop (length l) l = Ok (map dc l)) by (induction l as [|c l IH]; cbn; auto; rewrite IH; reflexivity).
  rewrite zlen_to_nat, D. cbn [bind].
  assert (R : downcase_rdatas (map canon vss) (rs_type s) (rs_class s) = Ok (res_success, map (fun vs => canon (map lower_val vs)) vss)).
  { clear E. induction F as [|vs vss [W Z] F IH]; cbn [map downcase_rdatas]; auto.
    pose proof (downcase_exact _ _ vs [] W Z I N) as X. rewrite !app_nil_r in X. rewrite X. cbn [bind]. rewrite IH. reflexivity. }
  rewrite R. reflexivity.
Qed.
Print Assumptions C35_rrset_partial.

(** Octets behind a complete rdata: reported, names folded, and the extra octets kept. (For the formats that take all
    remaining octets there are none.) *)
Theorem C35_trailing_octets_partial : forall t c vs z x, wf_values (format_of t c) vs -> nonzero_names vs -> In t rfc4034_types -> t <> 38 ->
  length vs = length (format_of t c) -> Forall delimited (format_of t c) -> z <> [] ->
  downcase_rdata (canon vs ++ z ++ x) (zlen (canon vs) + zlen z) t c = Ok (res_parse_error, canon (map lower_val vs) ++ z ++ x).
Proof. exact downcase_over. Qed.
Print Assumptions C35_trailing_octets_partial.
Example C35_trailing_ex : downcase_rdata [0; 65; 2; 65; 66; 1; 67; 0; 68] 9 15 1 = Ok (res_parse_error, [0; 65; 2; 97; 98; 1; 99; 0; 68]) /\
  length [VOctets [0; 65]; VName [[65; 66]; [67]]] = length (format_of 15 1) /\ Forall delimited (format_of 15 1).
Proof. split; [reflexivity|]. change (format_of 15 1) with [FFixed 2; FName]. split; [reflexivity|repeat constructor]. Qed.

(** wdns_downcase_rrset stops at the first rdata that is not accepted and returns its code; the rdatas before it are
    folded, those behind it unchanged. *)
Theorem C35_rrset_stops : forall s good bad rest good' r bad', rs_rdatas s = good ++ bad :: rest ->
  Forall2 (fun d d' => downcase_rdata d (zlen d) (rs_type s) (rs_class s) = Ok (res_success, d')) good good' ->
  downcase_rdata bad (zlen bad) (rs_type s) (rs_class s) = Ok (r, bad') -> r <> res_success ->
  downcase_rrset s = Ok (r, {| rs_name := map dc (rs_name s); rs_type := rs_type s; rs_class := rs_class s; rs_ttl := rs_ttl s;
    rs_rdatas := good' ++ bad' :: rest |}).
Proof.
  intros s good bad rest good' r bad' E F B N. unfold downcase_rrset, downcase_name. rewrite E.
  assert (D : forall l, downcase_loop (length l) l = Ok (map dc l)) by (induction l as [|c l IH]; cbn; auto; rewrite IH; reflexivity).
  rewrite zlen_to_nat, D. cbn [bind].
  assert (R : downcase_rdatas (good ++ bad :: rest) (rs_type s) (rs_class s) = Ok (r, good' ++ bad' :: rest)).
  { clear E. induction F as [|d d' g g' X F IH]; cbn [app downcase_rdatas].
    - rewrite B. cbn [bind]. destruct r; try reflexivity. contradiction.
    - rewrite X. cbn [bind]. rewrite IH. reflexivity. }
  rewrite R. reflexivity.
Qed.
Print Assumptions C35_rrset_stops.
Example C35_rrset_stops_ex : downcase_rrset {| rs_name := [1; 65; 0]; rs_type := 15; rs_class := 1; rs_ttl := 7;
    rs_rdatas := [[0; 1; 1; 66; 0]; [9]; [0; 1; 1; 66; 0]] |} =
  Ok (res_parse_error, {| rs_name := [1; 97; 0]; rs_type := 15; rs_class := 1; rs_ttl := 7; rs_rdatas := [[0; 1; 1; 98; 0]; [9]; [0; 1; 1; 66; 0]] |}).
Proof. reflexivity. Qed.

(** ** C36: exactly when is wdns_downcase_rdata (memory = exactly the rdata) memory safe. *)
Theorem C36_safe_iff_partial : forall m t c, bytes_ok m -> ((exists x, downcase_rdata m (zlen m) t c = Ok x) <-> ~ unterminated t c m).
Proof.
  intros m t c B. split; [|apply downcase_safe; auto]. intros (x & E) U. rewrite (downcase_unsafe _ _ _ U) in E. discriminate.
Qed.
Print Assumptions C36_safe_iff_partial.
(** Well-formed rdata is always safe. *)
Theorem C36_wellformed_safe_partial : forall t c vs, wf_values (format_of t c) vs -> exists x, downcase_rdata (canon vs) (zlen (canon vs)) t c = Ok x.
Proof.
  intros t c vs W. apply downcase_safe; [eapply ProofEncode.wf_values_bytes; eauto|].
  assert (Wz : forall ls, In 0 (wire ls)) by (intros; unfold wire; rewrite in_app_iff; right; left; auto).
  intros [([-> |[-> | ->]] & Ne & N)|(-> & -> & L & N)].
  1-3: (inversion W as [|? ls vs' _ W'|? ? l vs' Fo _ _ _ W']; subst; [auto| |contradiction Fo]; apply N; rewrite ProofEncode.canon_cons, in_app_iff; left; apply Wz).
  change (format_of 26 1) with [FFixed 2; FName; FName] in W. inversion W as [|? ? ? ? W'|? ? l vs' Fo _ _ _ W']; subst; [cbn in L; lia|].
  rewrite ProofEncode.canon_cons in *. cbn [ProofEncode.canon_cons canon1] in *. cbn [field_octets] in Fo.
  change 2%nat with (Z.to_nat 2) in N. rewrite <- Fo in N. rewrite skipn_zlen_app in N.
  inversion W' as [|? ls vs'' _ W''|? ? l' vs'' Fo' _ _ _ W'']; subst; [|apply N; rewrite ProofEncode.canon_cons, in_app_iff; left; apply Wz|contradiction Fo'].
  zl. change (canon []) with (@nil Z) in L. zl. lia.
Qed.
Print Assumptions C36_wellformed_safe_partial.
(** SOA rdata of the single octet 97: the scan for the second name runs out of the rdata. *)
Theorem C36_soa_refuted : downcase_rdata [97] 1 6 1 = UB OobRead.
Proof. reflexivity. Qed.
Print Assumptions C36_soa_refuted.
(** ... and changes memory behind it. *)
Theorem C36_soa_write_refuted : exists r, downcase_rdata [97; 65; 0; 1] 1 6 1 = Ok (r, [97; 97; 0; 1]).
Proof. eexists. reflexivity. Qed.
Print Assumptions C36_soa_write_refuted.
Example C36_ex : ~ unterminated 6 1 [1; 97; 0; 5] /\ exists x, downcase_rdata [1; 97; 0; 5] 4 6 1 = Ok x.
Proof. split; [|eexists; reflexivity]. intros [(_ & _ & N)|(X & _)]; [apply N; cbn; tauto|discriminate]. Qed.
