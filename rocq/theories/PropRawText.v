(** PropRawText.v: C109: the text of any RRset that was deserialised. Spec: SpecPrintMsg.v, SpecRRset.v, SpecRawName.v. *)
From Coq Require Strings.String.
From Verif Require Import Base Lib SpecName SpecMessage SpecFormat SpecText SpecMsgText SpecRRset SpecRawName SpecPrint SpecPrintMsg Libc ModelName ModelParse ModelRRset ModelToStr.
From Verif Require Import ProofMsgText ProofRawName ProofShow5 PropRRset PropRawName PropPrintMsg.
From Verif Require Import SpecPrint SpecPrintMsg.

Definition name_ends (d : bytes) : Prop := exists ls r, ended d ls r.
Lemma rr_stuck : forall u r sec, bytes_ok (rr_name r) -> zlen (rr_name r) <= 255 -> ~ name_ends (rr_name r) -> rr_to_ubuf u r sec = UB OobRead.
Proof. intros u r sec B L N. unfold rr_to_ubuf. destruct (C107_text_reads _ B L) as [H _]. rewrite (proj2 H N). reflexivity. Qed.
Lemma fits_of : forall s, wf_rrset s -> name_ends (rs_name s) -> rrset_fits s.
Proof.
  intros s (B & L & T & C & TT & N & D) (ls & r & E). split; [exists ls; split; [lia|exists r; auto]|]. split; [split; auto|]. split; [auto|]. exact D.
Qed.
Lemma ends_dec : forall d, bytes_ok d -> name_ends d \/ ~ name_ends d.
Proof.
  intros d B. destruct (C107_shapes_unique d) as (_ & _ & _ & U1 & U2 & _). destruct (C107_shapes d B) as [(ls & r & E)|[(ls & O)|(ls & c & r & C)]]; [left; exists ls, r; auto| |]; right; intros (ls' & r' & E'); [eapply U1|eapply U2]; eauto.
Qed.

(** The text is that of the specification, for every RRset whose parts have the sizes of the C types. *)
Theorem C109_text : forall s sec t, wf_rrset s -> sec <> 0 -> (rrset_to_str s sec = Ok t <-> rrset_shown s t).
Proof.
  intros s sec t W N. destruct W as (B & L & W'). assert (W : wf_rrset s) by (split; [auto|split; auto]). destruct (ends_dec _ B) as [E|NE]; [apply C105_rrset; auto; apply fits_of; auto|].
  unfold rrset_to_str, rrset_to_ubuf. replace (sec =? 0) with false by lia. destruct (rs_rdatas s) as [|d ds] eqn:D.
  - cbn [map rrs_to_ubuf]. split.
    + intros E. exists []. rewrite D. split; [constructor|]. cbn. congruence.
    + intros (ls & F & ->). rewrite D in F. inversion F. reflexivity.
  - cbn [map rrs_to_ubuf]. rewrite rr_stuck by (cbn; auto; lia). split; [discriminate|]. intros (ls & F & ->). rewrite D in F. inversion F as [|? ? ? ? R _]; subst.
    exfalso. destruct R as (ns & ? & ? & ? & ? & ? & (_ & r & E) & _). apply NE. exists ns, r. exact E.
Qed.
Print Assumptions C109_text.
(** Reading outside its memory, exactly when there is a line to print and the name has no end or some rdata stops inside a name. *)
Theorem C109_reads : forall s sec, wf_rrset s -> sec <> 0 ->
  (rrset_to_str s sec = UB OobRead <-> rs_rdatas s <> [] /\ (~ name_ends (rs_name s) \/ Exists (ends_in_name (format_of (rs_type s) (rs_class s))) (rs_rdatas s))) /\
  (rrset_to_str s sec = UB OobRead \/ exists t, rrset_to_str s sec = Ok t).
Proof.
  intros s sec W N. pose proof W as (B & L & T & C & TT & LN & F). unfold rrset_to_str, rrset_to_ubuf. replace (sec =? 0) with false by lia.
  destruct (rs_rdatas s) as [|d0 ds0] eqn:D0; [cbn [map rrs_to_ubuf]; split; [split; [discriminate|intros (X & _); contradiction]|right; eauto]|]. rewrite <- D0 in *.
  assert (NN : rs_rdatas s <> []) by (rewrite D0; discriminate). destruct (ends_dec _ B) as [(ls & r & E)|NE].
  - assert (NI : name_is (rs_name s) ls) by (split; [lia|exists r; auto]). clear LN D0 d0 ds0.
    assert (G : forall ds u, Forall (fun d => bytes_ok d /\ zlen d < 65536) ds -> let o := rrs_to_ubuf u (map (fun d => {| rr_name := rs_name s; rr_type := rs_type s; rr_class := rs_class s; rr_ttl := rs_ttl s; rr_rdata := Some d |}) ds) sec in
      (o = UB OobRead /\ Exists (ends_in_name (format_of (rs_type s) (rs_class s))) ds) \/ ((exists t, o = Ok t) /\ ~ Exists (ends_in_name (format_of (rs_type s) (rs_class s))) ds)).
    { induction ds as [|d ds IH]; intros u FD; cbn [map rrs_to_ubuf]; [right; split; [eauto|intros X; inversion X]|]. inversion FD as [|? ? [BD LD] FD']; subst.
      pose proof (name_prints _ _ NI) as P. match goal with |- context [rr_to_ubuf u ?q sec] => pose proof (rr_record u q sec _ _ N TT P) as R end. cbn [rr_rdata rr_type rr_class] in R.
      destruct (ProofDeliver.rdata_ok_or_cut d (rs_type s) (rs_class s) BD LD) as [_|X]; [|].
      - match goal with |- context [rr_to_ubuf u ?q sec] => destruct (record_total q) as [(t & S)|U] end.
        { split; [split; [exists ls; exact NI|split; auto]|]. split; [exact TT|]. exists d. split; [reflexivity|split; auto]. }
        + assert (NX : ~ ends_in_name (format_of (rs_type s) (rs_class s)) d). { match type of S with record_shown ?q _ => apply (C105_some_record q); [|eauto|reflexivity] end. split; [split; [exists ls; exact NI|split; auto]|]. split; [exact TT|]. exists d. split; [reflexivity|split; auto]. }
          match type of S with record_shown ?q _ => rewrite (record_shows u q sec t N) end; auto; [|split; [split; [exists ls; exact NI|split; auto]|]; split; [exact TT|]; exists d; split; [reflexivity|split; auto]].
          cbn [bind]. destruct (IH (u ++ t) FD') as [(X & Y)|(X & Y)]; [left; split; [exact X|right; exact Y]|]. right. split; [exact X|]. intros Z1. inversion Z1; subst; contradiction.
        + rewrite U by auto. cbn [bind]. left. split; [reflexivity|]. left. destruct (ProofDeliver.rdata_ok_or_cut d (rs_type s) (rs_class s) BD LD) as [(x & X)|X]; [|exact X].
          exfalso. rewrite U in R by auto. rewrite app_assoc in R. destruct (rdata_appends (u ++ record_head (pres_name ls) {| rr_name := rs_name s; rr_type := rs_type s; rr_class := rs_class s; rr_ttl := rs_ttl s; rr_rdata := Some d |}) d (zlen d) (rs_type s) (rs_class s)) as (k & E'). rewrite E' in R. rewrite X in R. discriminate.
      - left. split; [|left; exact X]. rewrite R. rewrite app_assoc. rewrite (ProofSafe2.rdata_cut _ d (rs_type s) (rs_class s)); auto. }
    destruct (G (rs_rdatas s) [] F) as [(X & Y)|((t & X) & Y)]; cbv zeta in X; rewrite X.
    + split; [|left; reflexivity]. split; auto.
    + split; [|right; eauto]. split; [discriminate|]. intros (_ & [Z1|Z1]); [exfalso; apply Z1; exists ls, r; exact E|contradiction].
  - rewrite D0. cbn [map rrs_to_ubuf]. rewrite rr_stuck by (cbn; auto; lia). cbn [bind]. split; [|left; reflexivity]. split; auto. intros _. split; [discriminate|left; auto].
Qed.
Print Assumptions C109_reads.
(** Both apply to whatever wdns_deserialize_rrset accepts. *)
Theorem C109_deserialised : forall big buf o sec, bytes_ok buf -> sec <> 0 -> deserialize_rrset big buf (zlen buf) = Ok (res_success, o) ->
  exists s, holds o s /\ wf_rrset s /\ (forall t, rrset_to_str s sec = Ok t <-> rrset_shown s t) /\
    (rrset_to_str s sec = UB OobRead <-> rs_rdatas s <> [] /\ (~ name_ends (rs_name s) \/ Exists (ends_in_name (format_of (rs_type s) (rs_class s))) (rs_rdatas s))).
Proof.
  intros big buf o sec B N E. apply C33_success_iff in E as (s & rest & W & _ & H); auto. exists s. split; [auto|]. split; [auto|]. split; [intros t; apply C109_text; auto|]. apply C109_reads; auto.
Qed.
Print Assumptions C109_deserialised.
(** An owner name with a 70-octet label; an owner name without an end. *)
Definition long_set : rrset := {| rs_name := 70 :: repeat 97 70 ++ [0; 9]; rs_type := 1; rs_class := 1; rs_ttl := 60; rs_rdatas := [[1; 2; 3; 4]; [1; 2]] |}.
Definition endless_set : rrset := {| rs_name := [1; 97]; rs_type := 1; rs_class := 1; rs_ttl := 60; rs_rdatas := [[1; 2; 3; 4]] |}.
Example C109_ex : wf_rrset long_set /\ wf_rrset endless_set /\ name_ends (rs_name long_set) /\ ~ name_ends (rs_name endless_set) /\
  rrset_to_str long_set 1 = Ok (repeat 97 70 ++ lit ". 60 IN A 1.2.3.4" ++ [10] ++ repeat 97 70 ++ lit ". 60 IN A  ### PARSE ERROR ###" ++ [10]) /\ rrset_to_str endless_set 1 = UB OobRead /\
  exists o, deserialize_rrset true (serial true endless_set) (zlen (serial true endless_set)) = Ok (res_success, o).
Proof.
  assert (W1 : wf_rrset long_set). { unfold wf_rrset, long_set; cbn [rs_name rs_type rs_class rs_ttl rs_rdatas]. repeat match goal with |- _ /\ _ => split end; try (apply PropParse.bytes_okb_ok; vm_compute; reflexivity); try lia; try (vm_compute; reflexivity); try (vm_compute; discriminate). repeat constructor; vm_compute; try reflexivity; discriminate. }
  assert (W2 : wf_rrset endless_set). { unfold wf_rrset, endless_set; cbn [rs_name rs_type rs_class rs_ttl rs_rdatas]. repeat match goal with |- _ /\ _ => split end; try (apply PropParse.bytes_okb_ok; vm_compute; reflexivity); try lia; try (vm_compute; reflexivity); try (vm_compute; discriminate). repeat constructor; vm_compute; try reflexivity; discriminate. }
  assert (U : rrset_to_str endless_set 1 = UB OobRead) by (vm_compute; reflexivity).
  split; [exact W1|]. split; [exact W2|]. split; [exists [repeat 97 70], [9]; split; [apply raw_bool; vm_compute; reflexivity|vm_compute; reflexivity]|]. split.
  - apply (C109_reads endless_set 1 W2 ltac:(lia)) in U as (_ & [X|X]); [exact X|]. exfalso. inversion X as [? ? Y|? ? Y]; subst; [|inversion Y].
    assert (R : exists t, rdata_to_str [1; 2; 3; 4] 4 1 1 = Ok t) by (eexists; vm_compute; reflexivity). destruct R as (t & R).
    assert (C : rdata_to_str [1; 2; 3; 4] 4 1 1 = UB OobRead). { unfold rdata_to_str. apply (ProofSafe2.rdata_cut [] [1; 2; 3; 4] 1 1); [apply PropParse.bytes_okb_ok; reflexivity|cbn; lia|exact Y]. } rewrite R in C. discriminate.
  - split; [vm_compute; reflexivity|]. split; [exact U|].
    exists (ProofRRset.the_obj endless_set). pose proof (ProofRRset.deserialize_complete true endless_set [] (zlen (serial true endless_set)) W2) as D. rewrite app_nil_r in D. apply D. lia.
Qed.
