(** PropMsgProg.v: C145, programs that parse, print, sort, lower-case, serialise and clear messages, for every history. *)
From Verif Require Import Base Lib ModelName ModelDescr ModelParse Libc ModelFormat ModelTables ModelRRset ModelToStr
  ModelHeap SpecHeap SpecRRset ProofRRset ProofHeap ProofHeap2 ProofHeap3 ModelHeap2 ProofHeap4 ProofHeap5 ProofHeap6 ProofHeap7 SpecSane SpecText
  ProofSafe ProofHeap8 ProofSane SpecHeap2 ProofHeap9 PropParse PropHeap PropHeap2 SpecMsgProg.
From Coq Require Import Permutation.

Lemma hset_same : forall x k, 0 <= k <= 3 -> hset_sec x k (hget_sec x k) = x.
Proof. intros [] k B. assert (D : k = 0 \/ k = 1 \/ k = 2 \/ k = 3) by lia. destruct D as [-> |[-> |[-> | ->]]]; reflexivity. Qed.
Lemma sane_sec : forall M k, sane_msg M -> sane_arr (get_sec M k).
Proof. intros M k (_ & _ & _ & _ & _ & _ & _ & A & B & C & D). unfold get_sec. destruct (k =? 0); [|destruct (k =? 1); [|destruct (k =? 2)]]; assumption. Qed.
Lemma sane_set_sec : forall M k a, sane_msg M -> sane_arr a -> sane_msg (set_sec M k a).
Proof.
  intros M k a (H0 & H1 & H2 & H3 & H4 & H5 & H6 & A & B & C & D) SA. unfold sane_msg, set_sec. cbn [m_id m_flags m_rcode m_edns m_qd m_an m_ns m_ar].
  split; [exact H0|]. split; [exact H1|]. split; [exact H2|]. split; [exact H3|]. split; [exact H4|]. split; [exact H5|]. split; [exact H6|].
  destruct (k =? 0), (k =? 1), (k =? 2), (k =? 3); auto.
Qed.
Lemma sane_with : forall M k c s d s', sane_msg M -> a_rrsets (get_sec M k) = c ++ s :: d -> sane_set s' -> sane_msg (with_set M k c s' d).
Proof.
  intros M k c s d s' SM E SS. apply sane_set_sec; [exact SM|]. destruct (sane_sec M k SM) as (A & B & C & D). rewrite E in B, D. unfold sane_arr. cbn [a_rrs a_rrsets]. split; [exact A|]. split; [|split; [exact C|]].
  - apply Forall_app in B as (B1 & B2). inversion B2; subst. apply Forall_app. split; [exact B1|constructor; auto].
  - unfold zlen in *. rewrite app_length in *. cbn [length] in *. exact D.
Qed.
(** The blocks of one RRset inside a message, and the message after an operation on them. *)
Lemma own_msg_set : forall M x fp k c s d, 0 <= k <= 3 -> own_msg M x fp -> a_rrsets (get_sec M k) = c ++ s :: d ->
  exists m1 z m2 fs rest, In (ha_sets (hget_sec x k), CSets (m1 ++ z :: m2)) fp /\ zlen m1 = zlen c /\ own_set s z fs /\ Permutation fp (fs ++ rest) /\
    forall s' fs', own_set s' z fs' -> exists fp', own_msg (with_set M k c s' d) x fp' /\ Permutation fp' (fs' ++ rest).
Proof.
  intros M x fp k c s d B OM E. destruct (own_msg_sec M x fp k B OM) as (fa & rest & OA & P & K).
  pose proof OA as OA0. destruct OA as (xs & f1 & ys & f2 & O1 & O2 & N1 & N2 & Z1 & Z2 & F). rewrite E in O2. apply own_list_split in O2 as (m1 & z & m2 & g1 & fs & g2 & -> & -> & X1 & X2 & X3).
  assert (NZ : ha_sets (hget_sec x k) <> 0) by (intros Z; specialize (Z2 Z); destruct m1; discriminate).
  exists m1, z, m2, fs, (block (ha_rrs (hget_sec x k)) (CRRs xs) ++ f1 ++ block (ha_sets (hget_sec x k)) (CSets (m1 ++ z :: m2)) ++ g1 ++ g2 ++ rest).
  split; [|split; [|split; [exact X2|split]]].
  - eapply Permutation_in; [symmetry; exact P|]. apply in_or_app. left. rewrite F, (block_some _ _ NZ). rewrite !in_app_iff. cbn [In]. auto.
  - unfold zlen. rewrite (own_list_len _ _ _ _ _ _ X1). reflexivity.
  - rewrite P, F. perm.
  - intros s' fs' OS. destruct (K {| a_rrs := a_rrs (get_sec M k); a_rrsets := c ++ s' :: d |} (hget_sec x k) (block (ha_rrs (hget_sec x k)) (CRRs xs) ++ f1 ++ block (ha_sets (hget_sec x k)) (CSets (m1 ++ z :: m2)) ++ g1 ++ fs' ++ g2)) as (fp' & OM' & P').
    + exists xs, f1, (m1 ++ z :: m2), (g1 ++ fs' ++ g2). cbn [a_rrs a_rrsets]. split; [exact O1|]. split; [apply own_list_join; assumption|]. auto 10.
    + rewrite hset_same in OM' by exact B. exists fp'. split; [exact OM'|]. rewrite P'. perm.
Qed.
Lemma own_msg_rr : forall M x fp k c r d, 0 <= k <= 3 -> own_msg M x fp -> a_rrs (get_sec M k) = c ++ r :: d ->
  exists m1 z m2 fr rest, In (ha_rrs (hget_sec x k), CRRs (m1 ++ z :: m2)) fp /\ zlen m1 = zlen c /\ own_rr r z fr /\ Permutation fp (fr ++ rest).
Proof.
  intros M x fp k c r d B OM E. destruct (own_msg_sec M x fp k B OM) as (fa & rest & OA & P & _).
  destruct OA as (xs & f1 & ys & f2 & O1 & O2 & N1 & N2 & Z1 & Z2 & F). rewrite E in O1. apply own_list_split in O1 as (m1 & z & m2 & g1 & fr & g2 & -> & -> & X1 & X2 & X3).
  assert (NZ : ha_rrs (hget_sec x k) <> 0) by (intros Z; specialize (Z1 Z); destruct m1; discriminate).
  exists m1, z, m2, fr, (block (ha_rrs (hget_sec x k)) (CRRs (m1 ++ z :: m2)) ++ g1 ++ g2 ++ block (ha_sets (hget_sec x k)) (CSets ys) ++ f2 ++ rest).
  split; [|split; [|split; [exact X2|]]].
  - eapply Permutation_in; [symmetry; exact P|]. apply in_or_app. left. rewrite F, (block_some _ _ NZ). rewrite !in_app_iff. cbn [In]. auto.
  - unfold zlen. rewrite (own_list_len _ _ _ _ _ _ X1). reflexivity.
  - rewrite P, F. perm.
Qed.

Ltac split_var OL A X B LA f1 g f2 m1 x m2 a :=
  apply own_list_split in OL as (m1 & x & m2 & f1 & g & f2 & -> & -> & A & X & B);
  assert (LA : zlen m1 = zlen a) by (unfold zlen; rewrite (own_list_len _ _ _ _ _ _ A); reflexivity).
Lemma set_at_wp : forall m1 x m2 a k m3 z m4 (c : list rrset) h L (Q : hset -> heap -> Prop), zlen m1 = zlen a -> zlen m3 = zlen c ->
  owns h L -> In (ha_sets (hget_sec x k), CSets (m3 ++ z :: m4)) L -> Q z h -> wp (set_at (m1 ++ x :: m2) (@zlen (option message) a) k (zlen c)) h Q.
Proof.
  intros m1 x m2 a k m3 z m4 c h L Q LA LC O I K. unfold set_at. apply wp_bind. eapply wp_elem; [exact LA|]. apply wp_bind. eapply wp_load_sets; [exact O|exact I|]. eapply wp_elem; [exact LC|exact K].
Qed.
Lemma rr_at_wp : forall m1 x m2 a k m3 z m4 (c : list rr) h L (Q : hrr -> heap -> Prop), zlen m1 = zlen a -> zlen m3 = zlen c ->
  owns h L -> In (ha_rrs (hget_sec x k), CRRs (m3 ++ z :: m4)) L -> Q z h -> wp (rr_at (m1 ++ x :: m2) (@zlen (option message) a) k (zlen c)) h Q.
Proof.
  intros m1 x m2 a k m3 z m4 c h L Q LA LC O I K. unfold rr_at. apply wp_bind. eapply wp_elem; [exact LA|]. apply wp_bind. eapply wp_load_rrs; [exact O|exact I|]. eapply wp_elem; [exact LC|exact K].
Qed.
(** One text goes out, then the rest of the program. *)
Lemma out_wp : forall (e : hm bytes) o h h1 (k : hm (list hmsg * list bytes)) out (R : list hmsg -> heap -> Prop), e h = HOk o h1 ->
  wp k h1 (fun y h' => snd y = out /\ R (fst y) h') -> wp (hbind e (fun o => hbind k (fun y => ret (fst y, o :: snd y)))) h (fun y h' => snd y = o :: out /\ R (fst y) h').
Proof.
  intros e o h h1 k out R E K. apply wp_bind. exists o, h1. split; [exact E|]. apply wp_bind. eapply wp_mono; [exact K|]. intros y h' (S & H). apply wp_ret. cbn [fst snd]. split; [congruence|exact H].
Qed.
Theorem run_msgs_wp : forall fuel ops s s' out, msgs_client fuel ops s s' out -> forall xs fp h L, own_list own_mvar s xs fp -> owns h (fp ++ L) ->
  wp (run_msgs fuel ops xs) h (fun y h' => snd y = out /\ exists fp', own_list own_mvar s' (fst y) fp' /\ owns h' (fp' ++ L)).
Proof.
  intros fuel ops s s' out C. induction C as [s|pkt a b r M ops s' out HB E C IH|a b M o ops s' out E C IH|a b M k o ops s' out Bk E C IH|a b M k c r d o ops s' out Bk Er E C IH|a b M k c s d o ops s' out Bk Es E C IH
    |a b M k c s d big cap o ops s' out Bk Es E C IH|a b M k c s d ops s' out Bk Es C IH|a b M k c s d r s1 ops s' out Bk Es E C IH|a o b ops s' out C IH]; intros xs fp h L OL O; cbn [run_msgs].
  - apply wp_ret. cbn [fst snd]. split; [reflexivity|]. exists fp. auto.
  - split_var OL A X B LA f1 g f2 m1 x m2 a. destruct X as ((-> & _) & _).
    apply wp_bind. eapply message_wp; [exact HB|exact O|exact E|]. intros x' h' g OM O' NS.
    apply wp_bind. eapply wp_upd; [exact LA|]. cbn [snd]. pose proof (parse_sane fuel pkt (zlen pkt) r M HB E) as SM.
    eapply (IH (m1 ++ x' :: m2) (f1 ++ g ++ f2) h' L).
    + apply own_list_join; auto. split; [|intros M' EM; destruct r; congruence]. destruct r; [exact OM|..]; (rewrite NS in OM by discriminate; rewrite NS by discriminate;
        assert (P : hm_present x' = false) by (destruct OM as (? & ? & ? & ? & _ & _ & _ & _ & P & _); rewrite P; eapply failed_present; [exact E|discriminate]);
        apply own_msg_nil in OM as (A1 & B1 & C1 & D1 & E1); cbn [own_slot]; auto 10).
    + eapply owns_perm; [exact O'|]. perm.
  - split_var OL A X B LA f1 g f2 m1 x m2 a. pose proof X as X0. destruct X as (X & SM). specialize (SM M eq_refl). cbn [own_slot] in X.
    apply wp_bind. eapply wp_elem; [exact LA|].
    destruct (C64_print_message M x g (f1 ++ f2 ++ L) h o SM X) as (h1 & E1 & O1); [eapply owns_perm; [exact O|perm]|exact E|].
    eapply (out_wp _ _ _ _ _ _ (fun v h' => exists fp', own_list own_mvar s' v fp' /\ owns h' (fp' ++ L))); [exact E1|]. eapply (IH (m1 ++ x :: m2) (f1 ++ g ++ f2) h1 L); [apply own_list_join; auto|eapply owns_perm; [exact O1|perm]].
  - split_var OL A X B LA f1 g f2 m1 x m2 a. pose proof X as X0. destruct X as (X & SM). specialize (SM M eq_refl). cbn [own_slot] in X.
    apply wp_bind. eapply wp_elem; [exact LA|]. destruct (own_msg_sec M x g k Bk X) as (fa & rest & OA & P & _).
    destruct (C64_print_array (get_sec M k) (hget_sec x k) fa (rest ++ f1 ++ f2 ++ L) k h o (sane_sec M k SM) OA) as (h1 & E1 & O1); [eapply owns_perm; [exact O|rewrite P; perm]|exact E|].
    eapply (out_wp _ _ _ _ _ _ (fun v h' => exists fp', own_list own_mvar s' v fp' /\ owns h' (fp' ++ L))); [exact E1|]. eapply (IH (m1 ++ x :: m2) (f1 ++ g ++ f2) h1 L); [apply own_list_join; auto|eapply owns_perm; [exact O1|rewrite P; perm]].
  - split_var OL A X B LA f1 g f2 m1 x m2 a. pose proof X as X0. destruct X as (X & SM). specialize (SM M eq_refl). cbn [own_slot] in X.
    destruct (own_msg_rr M x g k c r d Bk X Er) as (m3 & z & m4 & fr & rest & I & LC & OR & P).
    apply wp_bind. eapply rr_at_wp; [exact LA|exact LC|exact O|rewrite !in_app_iff; eauto|].
    destruct (sane_sec M k SM) as (SR & _). rewrite Er in SR. apply Forall_app in SR as (_ & SR). apply Forall_cons_iff in SR as (SR & _).
    destruct (C64_print_rr r z fr (rest ++ f1 ++ f2 ++ L) k h o SR OR) as (h1 & E1 & O1); [eapply owns_perm; [exact O|rewrite P; perm]|exact E|].
    eapply (out_wp _ _ _ _ _ _ (fun v h' => exists fp', own_list own_mvar s' v fp' /\ owns h' (fp' ++ L))); [exact E1|]. eapply (IH (m1 ++ x :: m2) (f1 ++ g ++ f2) h1 L); [apply own_list_join; auto|eapply owns_perm; [exact O1|rewrite P; perm]].
  - split_var OL A X B LA f1 g f2 m1 x m2 a. pose proof X as X0. destruct X as (X & SM). specialize (SM M eq_refl). cbn [own_slot] in X.
    destruct (own_msg_set M x g k c s d Bk X Es) as (m3 & z & m4 & fs & rest & I & LC & OS & P & _).
    apply wp_bind. eapply set_at_wp; [exact LA|exact LC|exact O|rewrite !in_app_iff; eauto|].
    destruct (sane_sec M k SM) as (_ & SS & _). rewrite Es in SS. apply Forall_app in SS as (_ & SS). apply Forall_cons_iff in SS as (SS & _).
    destruct (C64_print_rrset s z fs (rest ++ f1 ++ f2 ++ L) k h o SS OS) as (h1 & E1 & O1); [eapply owns_perm; [exact O|rewrite P; perm]|exact E|].
    eapply (out_wp _ _ _ _ _ _ (fun v h' => exists fp', own_list own_mvar s' v fp' /\ owns h' (fp' ++ L))); [exact E1|]. eapply (IH (m1 ++ x :: m2) (f1 ++ g ++ f2) h1 L); [apply own_list_join; auto|eapply owns_perm; [exact O1|rewrite P; perm]].
  - split_var OL A X B LA f1 g f2 m1 x m2 a. pose proof X as X0. destruct X as (X & SM). specialize (SM M eq_refl). cbn [own_slot] in X.
    destruct (own_msg_set M x g k c s d Bk X Es) as (m3 & z & m4 & fs & rest & I & LC & OS & P & _).
    apply wp_bind. eapply set_at_wp; [exact LA|exact LC|exact O|rewrite !in_app_iff; eauto|].
    assert (E1 : serialize_h big cap z h = HOk o h) by (eapply (serialize_h_ok big cap s z fs h (rest ++ f1 ++ f2 ++ L)); [exact OS|eapply owns_perm; [exact O|rewrite P; perm]|exact E]).
    eapply (out_wp _ _ _ _ _ _ (fun v h' => exists fp', own_list own_mvar s' v fp' /\ owns h' (fp' ++ L))); [exact E1|]. eapply (IH (m1 ++ x :: m2) (f1 ++ g ++ f2) h L); [apply own_list_join; auto|exact O].
  - split_var OL A X B LA f1 g f2 m1 x m2 a. destruct X as (X & SM). specialize (SM M eq_refl). cbn [own_slot] in X.
    destruct (own_msg_set M x g k c s d Bk X Es) as (m3 & z & m4 & fs & rest & I & LC & OS & P & K).
    apply wp_bind. eapply set_at_wp; [exact LA|exact LC|exact O|rewrite !in_app_iff; eauto|].
    destruct (sane_sec M k SM) as (_ & SS & _). rewrite Es in SS. apply Forall_app in SS as (_ & SS). apply Forall_cons_iff in SS as (SS & _).
    apply wp_bind. eapply wp_mono; [eapply (sort_h_wp s z fs h (rest ++ f1 ++ f2 ++ L)); [exact OS|eapply owns_perm; [exact O|rewrite P; perm]]|].
    intros u h1 (fs' & OS' & _ & O1). destruct (K _ _ OS') as (g' & OM' & P'). eapply (IH (m1 ++ x :: m2) (f1 ++ g' ++ f2) h1 L).
    + apply own_list_join; auto. split; [exact OM'|]. intros M' EM. injection EM as <-. eapply sane_with; [exact SM|exact Es|]. apply sort_sane. exact SS.
    + eapply owns_perm; [exact O1|]. rewrite P'. perm.
  - split_var OL A X B LA f1 g f2 m1 x m2 a. destruct X as (X & SM). specialize (SM M eq_refl). cbn [own_slot] in X.
    destruct (own_msg_set M x g k c s d Bk X Es) as (m3 & z & m4 & fs & rest & I & LC & OS & P & K).
    apply wp_bind. eapply set_at_wp; [exact LA|exact LC|exact O|rewrite !in_app_iff; eauto|].
    destruct (sane_sec M k SM) as (_ & SS & _). rewrite Es in SS. apply Forall_app in SS as (_ & SS). apply Forall_cons_iff in SS as (SS & _).
    apply wp_bind. eapply wp_mono; [eapply (downcase_h_wp s z fs h (rest ++ f1 ++ f2 ++ L)); [exact OS|eapply owns_perm; [exact O|rewrite P; perm]|exact E]|].
    intros u h1 (_ & fs' & OS' & O1). destruct (K _ _ OS') as (g' & OM' & P'). eapply (IH (m1 ++ x :: m2) (f1 ++ g' ++ f2) h1 L).
    + apply own_list_join; auto. split; [exact OM'|]. intros M' EM. injection EM as <-. eapply sane_with; [exact SM|exact Es|]. eapply down_sane; eauto.
    + eapply owns_perm; [exact O1|]. rewrite P'. perm.
  - split_var OL A X B LA f1 g f2 m1 x m2 a. destruct X as (X & _).
    apply wp_bind. eapply wp_elem; [exact LA|].
    apply wp_bind. eapply (slot_clear_wp o x g h (f1 ++ f2 ++ L)); [exact X|eapply owns_perm; [exact O|perm]|].
    intros x' h' X' O'. apply wp_bind. eapply wp_upd; [exact LA|].
    eapply (IH (m1 ++ x' :: m2) (f1 ++ [] ++ f2) h' L).
    + apply own_list_join; auto. split; [exact X'|discriminate].
    + eapply owns_perm; [exact O'|]. perm.
Qed.

(** ** C145 *)
(** Every program of these operations, in any order, on any number of variables: it runs without fault, writes exactly what
    the functions without heap say, and at the end the live blocks are those before and those of the variables. *)
Theorem C145_history : forall fuel ops n s out h, heap_ok h -> msgs_client fuel ops (repeat None n) s out ->
  exists xs h' fp, run_msgs fuel ops (repeat hmsg0 n) h = HOk (xs, out) h' /\ own_list own_mvar s xs fp /\ owns h' (fp ++ h_live h).
Proof.
  intros fuel ops n s out h OK C.
  assert (I : own_list own_mvar (repeat None n) (repeat hmsg0 n) []).
  { clear. induction n as [|n IH]; cbn [repeat]; [constructor|]. change (@nil (Z * cell)) with (@nil (Z * cell) ++ []) at 1. constructor; [|exact IH]. split; [cbn; auto 10|discriminate]. }
  destruct (run_msgs_wp fuel ops _ s out C (repeat hmsg0 n) [] h (h_live h) I (owns_self h OK)) as ((xs & o) & h' & E & X & fp & A & B).
  cbn [fst snd] in *. subst o. exists xs, h', fp. auto.
Qed.
Print Assumptions C145_history.
Theorem C145_history_clean : forall fuel ops n out h, heap_ok h -> msgs_client fuel ops (repeat None n) (repeat None n) out ->
  exists xs h', run_msgs fuel ops (repeat hmsg0 n) h = HOk (xs, out) h' /\ Permutation (h_live h') (h_live h).
Proof.
  intros fuel ops n out h OK C. destruct (C145_history fuel ops n _ out h OK C) as (xs & h' & fp & E & A & (_ & B)). exists xs, h'. split; [exact E|].
  replace fp with (@nil (Z * cell)) in B; [exact B|].
  clear - A. revert xs fp A. induction n as [|n IH]; intros xs fp A; cbn [repeat] in A; inversion A as [|? ? x m f g W V]; subst; auto.
  destruct W as ((-> & _) & _). cbn [app]. eauto.
Qed.
Print Assumptions C145_history_clean.

(** Two variables. A question and two MX records of "A.", out of order and with capitals. *)
Definition mx_pkt : bytes :=
  [0;7;129;128;0;1;0;2;0;0;0;0; 1;65;0;0;15;0;1; 192;12;0;15;0;1;0;0;0;60;0;4;0;20;192;12; 192;12;0;15;0;1;0;0;0;60;0;4;0;10;192;12].
Definition mx_msg : message := match parse_message 0 mx_pkt (zlen mx_pkt) with Ok (_, M) => M | _ => empty_message end.
Definition mx_set : rrset := {| rs_name := [1; 65; 0]; rs_type := 15; rs_class := 1; rs_ttl := 60; rs_rdatas := [[0; 20; 1; 65; 0]; [0; 10; 1; 65; 0]] |}.
Definition mx_down : rrset := {| rs_name := [1; 97; 0]; rs_type := 15; rs_class := 1; rs_ttl := 60; rs_rdatas := [[0; 10; 1; 97; 0]; [0; 20; 1; 97; 0]] |}.
Definition mx_ops : list mop :=
  [MParse 1 (firstn 40 mx_pkt); MParse 0 mx_pkt; MPrint 0; MSort 0 1 0; MDown 0 1 0; MPrintSet 0 1 0; MPrintArray 0 1; MPrintRR 0 1 1; MSer 0 1 0 true 30; MClear 0; MClear 1].
Definition mx_header : bytes := lit ";; ->>HEADER<<- opcode: QUERY, rcode: NOERROR, id: 7
;; flags: qr rd ra; QUERY: 1, ANSWER: 2, AUTHORITY: 0, ADDITIONAL: 0

;; QUESTION SECTION:
;A. IN MX

;; ANSWER SECTION:
A. 60 IN MX 20 A.
A. 60 IN MX 10 A.

;; AUTHORITY SECTION:

;; ADDITIONAL SECTION:
".
Definition mx_out : list bytes :=
  [mx_header; lit "a. 60 IN MX 10 a.
a. 60 IN MX 20 a.
"; lit "A. 60 IN MX 20 A.
A. 60 IN MX 10 A.
"; lit "A. 60 IN MX 10 A.
"; serial true mx_down].
Example C145_ex : msgs_client 0 mx_ops (repeat None 2) (repeat None 2) mx_out.
Proof.
  assert (B : bytes_ok mx_pkt) by (apply bytes_okb_ok; reflexivity). assert (B2 : bytes_ok (firstn 40 mx_pkt)) by (apply bytes_okb_ok; reflexivity).
  unfold mx_ops. cbn [repeat]. set (M1 := with_set mx_msg 1 [] (sort_rrset mx_set) []). set (M2 := with_set M1 1 [] mx_down []).
  eapply (mc_parse 0 (firstn 40 mx_pkt) [None] [] res_parse_error); [exact B2|vm_compute; reflexivity|]. cbn [app].
  apply (mc_parse 0 mx_pkt [] [None] res_success mx_msg); [exact B|vm_compute; reflexivity|]. cbn [app].
  apply (mc_print 0 [] [None] mx_msg mx_header); [vm_compute; reflexivity|]. cbn [app].
  apply (mc_sort 0 [] [None] mx_msg 1 [] mx_set []); [lia|vm_compute; reflexivity|]. cbn [app]. fold M1.
  apply (mc_down 0 [] [None] M1 1 [] (sort_rrset mx_set) [] res_success mx_down); [lia|vm_compute; reflexivity|vm_compute; reflexivity|]. cbn [app]. fold M2.
  apply (mc_print_set 0 [] [None] M2 1 [] mx_down []); [lia|vm_compute; reflexivity|vm_compute; reflexivity|]. cbn [app].
  apply (mc_print_array 0 [] [None] M2 1); [lia|vm_compute; reflexivity|]. cbn [app].
  apply (mc_print_rr 0 [] [None] M2 1 [hd (Build_rr [] 0 0 0 None) (a_rrs (m_an mx_msg))] (nth 1 (a_rrs (m_an mx_msg)) (Build_rr [] 0 0 0 None)) []); [lia|vm_compute; reflexivity|vm_compute; reflexivity|]. cbn [app].
  apply (mc_ser 0 [] [None] M2 1 [] mx_down [] true 30); [lia|vm_compute; reflexivity|vm_compute; reflexivity|]. cbn [app].
  apply (mc_clear 0 [] (Some M2) [None]). cbn [app].
  apply (mc_clear 0 [None] None []). apply mc_nil.
Qed.
Example C145_ex2 : exists xs h, run_msgs 0 mx_ops (repeat hmsg0 2) ex_heap = HOk (xs, mx_out) h /\ h_live h = h_live ex_heap /\ h_next h > h_next ex_heap + 20.
Proof. eexists. eexists. split; [vm_compute; reflexivity|]. split; vm_compute; reflexivity. Qed.
