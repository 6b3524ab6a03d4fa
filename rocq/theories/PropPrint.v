(** PropPrint.v: C103, C104: the exact text printed for every rdata octet string, well-formed or not. Spec: SpecPrint.v
    (fields, errors), SpecText.v (well-formed fields), SpecMsgText.v (EDNS options). *)
From Coq Require Strings.String.
From Verif Require Import Base Lib ModelName SpecName SpecMessage SpecEncode SpecFormat SpecTables SpecText SpecMsgText SpecPrint Libc ModelFormat ModelTables ModelDescr ModelParse ModelToStr.
From Verif Require Import PropParse ProofFormat ProofRdata ProofMsgText ProofRdataText ProofSafe2 ProofDeliver ProofShow1 ProofShow2 ProofShow3 ProofShow4.
From Verif Require Import SpecPrint.

(** ** C103: the text is the one of the specification, and no other, for all octets, types and classes. *)
Theorem C103_printed : forall l t c s, bytes_ok l -> zlen l < 65536 -> (rdata_to_str l (zlen l) t c = Ok s <-> rdata_shown t c l s).
Proof.
  intros l t c s B L. split; [|apply shown_prints; auto]. intros E. destruct (shown_total l t c B L) as [(s' & H)|U]; [|congruence].
  pose proof (shown_prints l t c s' B L H) as E'. assert (s = s') by congruence. subst. auto.
Qed.
Print Assumptions C103_printed.

(** The specification gives at most one text, and it gives one exactly for the rdata that does not stop inside a name. *)
Theorem C103_one_text : forall l t c s s', bytes_ok l -> zlen l < 65536 -> rdata_shown t c l s -> rdata_shown t c l s' -> s = s'.
Proof. intros l t c s s' B L H H'. apply shown_prints in H; auto. apply shown_prints in H'; auto. congruence. Qed.
Print Assumptions C103_one_text.
Theorem C103_some_text : forall l t c, bytes_ok l -> zlen l < 65536 -> ((exists s, rdata_shown t c l s) <-> ~ ends_in_name (format_of t c) l).
Proof.
  intros l t c B L. split.
  - intros (s & H) EN. apply shown_prints in H; auto. unfold rdata_to_str in H. rewrite rdata_cut in H; auto. discriminate.
  - intros NE. destruct (rdata_ok_or_cut l t c B L) as [(s & E)|EN]; [|contradiction]. exists s. apply C103_printed; auto.
Qed.
Print Assumptions C103_some_text.

(** ** C104: consequences for malformed rdata, stated without the whole grammar. *)

(** An IPv4 address (A): nothing for no octets, the error for one to three, the address of the first four otherwise. *)
Theorem C104_a : forall l, bytes_ok l -> zlen l < 65536 ->
  (l = [] -> rdata_to_str l (zlen l) 1 1 = Ok []) /\
  (0 < zlen l < 4 -> rdata_to_str l (zlen l) 1 1 = Ok (lit " ### PARSE ERROR ###")) /\
  (forall a r s, l = a ++ r -> ipv4_text a s -> rdata_to_str l (zlen l) 1 1 = Ok s).
Proof.
  intros l B L. split; [|split].
  - intros ->. reflexivity.
  - intros Z. apply C103_printed; auto. unfold rdata_shown. cbn [Z.eqb]. exists [], (Some err_short). split; [|reflexivity]. apply fl_stop; [intros ->; cbn in Z; lia|].
    apply sh_missing; [reflexivity|discriminate|]. intros o r -> F. cbn in F. rewrite zlen_app in Z. pose proof (zlen_nonneg _ r). lia.
  - intros a r s -> T. apply C103_printed; auto. unfold rdata_shown. cbn [Z.eqb]. assert (Z : zlen a = 4). { destruct T as (x & y & z & w & d1 & d2 & d3 & d4 & -> & _). reflexivity. }
    exists ((s ++ [32]) ++ []), None. split; [|left; apply app_nil_r].
    assert (each 32 [s] = s ++ [32]) as ES by (unfold each; cbn [map concat]; apply app_nil_r). rewrite <- ES.
    apply (fl_field _ _ _ _ _ r); [destruct a; [cbn in Z; lia|discriminate]|apply sh_value; [reflexivity|discriminate|exact Z|apply ft_ipv4; exact T]|apply fl_done].
Qed.
Print Assumptions C104_a.

Lemma no_eui : forall t, t <> 108 /\ t <> 109 -> ~ In PEui (presentation_of t).
Proof.
  intros t N I. assert (K : forallb (fun e => (fst e =? 108) || (fst e =? 109) || negb (existsb (fun p => match p with PEui => true | _ => false end) (snd e))) rr_presentation = true) by (vm_compute; reflexivity).
  unfold presentation_of in I. destruct (find _ _) as [[i ps]|] eqn:F; [|contradiction]. apply find_some in F as [F1 F2]. rewrite forallb_forall in K. specialize (K _ F1). cbn [fst snd] in *.
  assert (existsb (fun p => match p with PEui => true | _ => false end) ps = true) as X by (apply existsb_exists; eauto). rewrite X in K. cbn [negb] in K. lia.
Qed.
(** Complete fields of fixed extent at the front. *)
Lemma front_shown : forall fs ps vs ts, length fs = length vs -> length ps = length vs -> wf_values fs vs -> existsb to_end fs = false -> fields_tokens ps vs ts ->
  exists x, (~ In PEui ps -> x = each 32 ts) /\ forall more r y e, fields_shown more r y e -> fields_shown (combine fs ps ++ more) (canon vs ++ r) (x ++ y) e.
Proof.
  intros fs ps vs ts L1 L2 W T F. revert fs L1 L2 W T. induction F as [ps|p ps v vs ts ts' F FS IH]; intros fs L1 L2 W T.
  - exists []. split; [reflexivity|]. destruct fs; [|discriminate]. cbn. auto.
  - destruct fs as [|f fs]; [discriminate|]. cbn [existsb] in T. apply orb_false_iff in T as [T1 T2]. cbn [length] in L1, L2. assert (W' : wf_values fs vs) by (inversion W; auto).
    destruct (IH fs ltac:(lia) ltac:(lia) W' T2) as (x & X & H). assert (exists y, (p <> PEui -> y = each 32 ts) /\ forall r, canon1 v ++ r <> [] /\ shows f p (canon1 v ++ r) y (Go r)) as (y & Y & S).
    { inversion W; subst; cbn [canon1].
      - inversion F; subst. eexists. split; [|intros r; split; [|apply sh_name; auto]].
        + intros _. unfold each. cbn [map concat]. rewrite app_nil_r. reflexivity.
        + intros K. apply app_eq_nil in K as [K _]. unfold wire in K. apply app_eq_nil in K as [_ K]. discriminate.
      - assert (D : p = PEui \/ p <> PEui) by (destruct p; (left; reflexivity) || (right; discriminate)). destruct D as [-> |D].
        + inversion F; subst. eexists. split; [intros K; contradiction|]. intros r. split; [destruct l; [contradiction|discriminate]|apply sh_eui; eauto].
        + eexists. split; [intros _; reflexivity|]. intros r. split; [destruct l; [contradiction|discriminate]|apply sh_value; auto]. }
    exists (y ++ x). split.
    + intros K. rewrite X, Y by (intros I; apply K; cbn; auto). unfold each. rewrite map_app, concat_app. reflexivity.
    + intros more r z e M. cbn [combine app]. unfold canon. cbn [map concat]. rewrite <- !app_assoc. destruct (S (canon vs ++ r)) as [S1 S2]. eapply fl_field; eauto.
Qed.


Lemma each_join : forall c ts, ts <> [] -> each c ts = join_by c ts ++ [c].
Proof.
  intros c ts N. induction ts as [|t ts IH]; [contradiction|]. destruct ts as [|u ts]; [unfold each; cbn; rewrite app_nil_r; reflexivity|].
  change (each c (t :: u :: ts)) with ((t ++ [c]) ++ each c (u :: ts)). rewrite IH by discriminate. cbn [join_by]. rewrite <- !app_assoc. reflexivity.
Qed.
Lemma combine_all : forall (A B : Type) (a a' : list A) (b b' : list B), length a = length b -> combine (a ++ a') (b ++ b') = combine a b ++ combine a' b'.
Proof. intros A B a. induction a as [|x a IH]; intros a' b b' L; destruct b; try discriminate; cbn; [reflexivity|]. f_equal. apply IH. cbn in L. lia. Qed.
Lemma shown_fields : forall t c l x e s, has_fields t c = true -> t <> 41 -> bytes_ok l -> zlen l < 65536 -> fields_shown (combine (format_of t c) (presentation_of t)) l x e ->
  match e with None => unblank x s | Some e => s = x ++ e end -> rdata_to_str l (zlen l) t c = Ok s.
Proof.
  intros t c l x e s HF N B L F M. apply C103_printed; auto. unfold rdata_shown. replace (t =? 41) with false by lia.
  destruct (find (fun e => fst e =? t) rr_formats) eqn:FD; [rewrite HF; eauto|]. unfold has_fields in HF. rewrite FD in HF. discriminate.
Qed.

(** Octets behind the last field are ignored. *)
Theorem C104_surplus : forall t c vs s r, has_fields t c = true -> ~ In t [41; 108; 109] -> existsb to_end (format_of t c) = false ->
  length (format_of t c) = length vs -> wf_values (format_of t c) vs -> rdata_text t vs s -> bytes_ok r -> zlen (canon vs ++ r) < 65536 ->
  rdata_to_str (canon vs ++ r) (zlen (canon vs ++ r)) t c = Ok s.
Proof.
  intros t c vs s r HF N T L W (ts & FT & ->) BR Z. assert (N1 : t <> 41) by (cbn in N; lia). destruct (table_fields t c HF N1) as (d & E1 & E2 & E3 & E4 & E5 & E6).
  assert (LP : length (presentation_of t) = length vs). { rewrite <- L, format_of_fields, <- E3, E4, !map_length. reflexivity. }
  destruct (front_shown _ _ _ _ L LP W T FT) as (x & X & H). specialize (H [] r [] None (fl_done _)). rewrite !app_nil_r in H. rewrite X in H by (apply no_eui; cbn in N; lia).
  eapply shown_fields; eauto; [apply bytes_ok_app; split; auto; eapply canon_ok; eauto|]. destruct ts as [|w ts]; [right; split; [reflexivity|cbn; lia]|left; apply each_join; discriminate].
Qed.
Print Assumptions C104_surplus.

(** Octets that are too few for a field: the fields before it, then the error. *)
Theorem C104_missing : forall t c fs f more ps p more' vs ts l, has_fields t c = true -> ~ In t [41; 108; 109] ->
  format_of t c = fs ++ f :: more -> presentation_of t = ps ++ p :: more' -> length fs = length vs -> length ps = length vs ->
  wf_values fs vs -> existsb to_end fs = false -> fields_tokens ps vs ts ->
  f <> FName -> to_end f = false -> l <> [] -> bytes_ok l -> (forall o r, l = o ++ r -> ~ field_octets f o) -> zlen (canon vs ++ l) < 65536 ->
  rdata_to_str (canon vs ++ l) (zlen (canon vs ++ l)) t c = Ok (concat (map (fun w => w ++ [32]) ts) ++ lit " ### PARSE ERROR ###").
Proof.
  intros t c fs f more ps p more' vs ts l HF N EF EP L1 L2 W T FT NN TE NL B NH Z. assert (N1 : t <> 41) by (cbn in N; lia).
  destruct (front_shown _ _ _ _ L1 L2 W T FT) as (x & X & H).
  assert (S : fields_shown (combine (f :: more) (p :: more')) l [] (Some err_short)) by (cbn [combine]; apply fl_stop; auto; apply sh_missing; auto).
  specialize (H _ _ _ _ S). rewrite app_nil_r in H. rewrite <- combine_all in H by congruence. rewrite <- EF, <- EP in H.
  rewrite X in H by (intros I; apply (no_eui t ltac:(cbn in N; lia)); rewrite EP; apply in_app_iff; auto).
  eapply shown_fields; eauto; [apply bytes_ok_app; split; auto; eapply canon_ok; eauto|reflexivity].
Qed.
Print Assumptions C104_missing.

(** Concrete cases: an SRV record cut inside its second field; an MX record with a surplus octet; an A6 prefix of 129 bits; an
    odd octet behind the windows of a bit map; a service parameter with the reserved key, a port of one octet; an EDNS
    client subnet that is too short, behind a good option; a name that is too long. *)
Example C104_srv_ex : rdata_to_str [0; 10; 3] 3 33 1 = Ok (lit "10  ### PARSE ERROR ###").
Proof.
  apply (C104_missing 33 1 [FFixed 2] (FFixed 2) [FFixed 2; FName] [PDec] PDec [PDec; PName] [VOctets [0; 10]] [lit "10"] [3]); try reflexivity; try discriminate; try (cbn; lia).
  - apply (wv_octets (FFixed 2) [] [0; 10] []); [reflexivity|repeat constructor; lia|discriminate|reflexivity|apply wv_end].
  - apply (fs_field PDec [] (VOctets [0; 10]) [] [lit "10"] []); [|apply fs_end]. apply ft_dec. apply fmt_u_decimal. cbv; split; [discriminate|reflexivity].
  - repeat constructor; lia.
  - intros o r E F. cbn in F. assert (K : zlen [3] = zlen o + zlen r) by (rewrite <- zlen_app, <- E; reflexivity). cbn in K. pose proof (zlen_nonneg _ r). lia.
Qed.
Example C104_mx_ex : forall r, bytes_ok r -> zlen r < 60000 -> rdata_to_str ([0; 10; 1; 97; 0] ++ r) (zlen ([0; 10; 1; 97; 0] ++ r)) 15 1 = Ok (lit "10 a.").
Proof.
  intros r B L. apply (C104_surplus 15 1 [VOctets [0; 10]; VName [[97]]] (lit "10 a.") r); try reflexivity; auto; try (cbn; lia).
  - apply (wv_octets (FFixed 2) [FName] [0; 10] [VName [[97]]]); [reflexivity|repeat constructor; lia|discriminate|discriminate|].
    apply wv_name; [|apply wv_end]. split; [|cbv; discriminate]. repeat constructor; cbn; try lia; discriminate.
  - exists ([lit "10"] ++ ([pres_name [[97]]] ++ [])). split; [|reflexivity]. apply fs_field; [|apply fs_field; [apply ft_name|apply fs_end]].
    apply ft_dec. apply fmt_u_decimal. cbv; split; [discriminate|reflexivity].
  - unfold zlen in *. rewrite app_length. cbn [length canon map concat canon1 app wire prewire]. cbn. lia.
Qed.
Example C103_ex :
  rdata_shown 38 1 [129; 0] (lit " ### PARSE ERROR ###") /\
  rdata_shown 47 1 [0; 0; 1; 64; 7] (lit ". A") /\
  rdata_shown 64 1 [0; 1; 0; 255; 255] (lit "1 .  ### PARSE ERROR ###") /\
  rdata_shown 64 1 [0; 1; 0; 0; 3; 0; 1; 5] (lit "1 . port= ### PARSE ERROR #12 ###") /\
  rdata_shown 41 0 [0; 3; 0; 1; 97; 0; 8; 0; 1; 0] (lit "OPT=3: 61 (""a"")" ++ [10] ++ lit "CLIENT-SUBNET:  ### PARSE ERROR #12 ###") /\
  rdata_shown 2 1 (concat (repeat (63 :: repeat 97 63) 4) ++ [0]) (lit " ### PARSE ERROR #8 ###").
Proof.
  repeat match goal with |- _ /\ _ => split end; apply C103_printed;
    first [apply bytes_okb_ok; vm_compute; reflexivity|cbv; reflexivity|idtac].
  all: vm_compute; reflexivity.
Qed.
