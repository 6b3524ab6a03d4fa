(** PropBack.v: C102: exactly which rdata survives printing and reading. The conditions [all_readable] are those of
    SpecText.v. *)
From Verif Require Import Base Lib SpecName SpecMessage SpecEncode SpecFormat SpecText Libc ModelName ModelDescr ModelTables ModelToStr ModelFromStr.
From Verif Require Import ProofRdata ProofField ProofBack2 PropText PropSafe PropReadText.

(** ** C102 *)
(** Well-formed rdata of a supported type is printed, and the text is read as the same octets if and only if [all_readable]
    holds: the type covered is not 0 (RRSIG), a type bit map is canonical, an A6 prefix length 0 comes without a name and 128
    with one, key lists and address lists in SvcParams are not empty and no key list names key 65535, an alpn list does not end
    in an empty id, and ech has 1 to 189 octets. *)
Theorem C102_exactly : forall t c vs, t <> 41 -> has_fields t c = true -> wf_values (format_of t c) vs -> zlen (canon vs) < 65536 ->
  exists s, rdata_to_str (canon vs) (zlen (canon vs)) t c = Ok s /\ (str_to_rdata s t c = Ok (canon vs) <-> all_readable (presentation_of t) vs).
Proof.
  intros t c vs N H W L. destruct (C50_well_formed t c vs W L N) as (s & P & _). exists s. split; [exact P|]. split.
  - eapply read_back; eauto.
  - intros R. destruct (C48_roundtrip_partial t c vs N H W R L) as (s' & P' & Q). assert (s' = s) by congruence. subst s'. exact Q.
Qed.
Print Assumptions C102_exactly.

(** Rdata of the types without a known format always survives, rdata of the types known in class IN only never does in another
    class unless it is empty: every type and class but OPT is covered. *)
Theorem C102_generic : forall t c l, find (fun e => fst e =? t) rr_formats = None -> bytes_ok l -> zlen l < 65536 ->
  exists s, rdata_to_str l (zlen l) t c = Ok s /\ str_to_rdata s t c = Ok l.
Proof. intros t c l F B L. destruct (C49_roundtrip t c l F B L) as (s & P & _ & Q). eauto. Qed.
Print Assumptions C102_generic.
Theorem C102_other_class : forall t c l, find (fun e => fst e =? t) rr_formats <> None -> has_fields t c = false ->
  exists s, rdata_to_str l (zlen l) t c = Ok s /\ (str_to_rdata s t c = Ok l <-> l = []).
Proof. intros t c l F H. exists []. split; [apply C60_other_class; auto|]. apply C91_other_class_exact; auto. Qed.
Print Assumptions C102_other_class.

(** The conditions by family, for rdata with all the fields. *)
Theorem C102_rrsig : forall c a vs, wf_values (format_of 46 c) (VOctets a :: vs) -> zlen (canon (VOctets a :: vs)) < 65536 ->
  exists s, rdata_to_str (canon (VOctets a :: vs)) (zlen (canon (VOctets a :: vs))) 46 c = Ok s /\ (str_to_rdata s 46 c = Ok (canon (VOctets a :: vs)) <-> a <> [0; 0]).
Proof.
  intros c a vs W L. destruct (C102_exactly 46 c (VOctets a :: vs) ltac:(lia) ltac:(reflexivity) W L) as (s & P & E). exists s. split; [exact P|]. rewrite E. change (presentation_of 46) with [PType; PDec; PDec; PDec; PDec; PDec; PDec; PName; PBase64]. cbn [all_readable].
  change (format_of 46 c) with [FFixed 2; FFixed 1; FFixed 1; FFixed 4; FFixed 4; FFixed 4; FFixed 2; FName; FRest] in W. inversion W as [| |? ? ? ? FO B N T W']; subst. cbn [field_octets] in FO.
  destruct a as [|x [|y [|]]]; try (unfold zlen in FO; cbn [length] in FO; lia). apply Forall_inv in B as Bx. apply Forall_inv_tail in B. apply Forall_inv in B as By. unfold is_byte in Bx, By. cbn [readable]. unfold be_value. cbn [fold_left]. split.
  - intros [R _] K. injection K as -> ->. apply R. reflexivity.
  - intros R. split; [intros K; apply R; f_equal; [lia|f_equal; lia]|]. apply (ordinary_readable [PDec; PDec; PDec; PDec; PDec; PDec; PName; PBase64] []); [repeat constructor|]. apply wf_length in W'. exact W'.
Qed.
Print Assumptions C102_rrsig.
Theorem C102_nsec : forall c ls ws, valid_name ls -> bytes_ok (concat (map window ws)) -> Forall (fun w => 1 <= zlen (snd w) <= 32) ws -> ws <> [] -> zlen (wire ls ++ concat (map window ws)) < 65536 ->
  exists s, rdata_to_str (wire ls ++ concat (map window ws)) (zlen (wire ls ++ concat (map window ws))) 47 c = Ok s /\
    (str_to_rdata s 47 c = Ok (wire ls ++ concat (map window ws)) <-> canonical ws).
Proof.
  intros c ls ws V B F N L. set (vs := [VName ls; VOctets (concat (map window ws))]).
  assert (E : canon vs = wire ls ++ concat (map window ws)) by (unfold canon, vs; cbn [map concat canon1]; rewrite app_nil_r; reflexivity).
  assert (W : wf_values (format_of 47 c) vs). { change (format_of 47 c) with [FName; FTypes]. apply wv_name; auto. apply wv_octets; auto; [exists ws; auto| |constructor]. destruct ws; [congruence|discriminate]. }
  rewrite <- E in *. destruct (C102_exactly 47 c vs ltac:(lia) ltac:(reflexivity) W L) as (s & P & Q). exists s. split; [exact P|]. rewrite Q. change (presentation_of 47) with [PName; PTypes]. unfold vs. cbn [all_readable readable]. split.
  - intros (_ & (ws' & C & EW) & _). apply ProofRoundTrip.windows_unique in EW. subst. exact C.
  - intros C. split; [exact I|]. split; [eauto|exact I].
Qed.
Print Assumptions C102_nsec.
Theorem C102_a6 : forall p a (o : option lname), zlen a = (128 - p + 7) / 8 -> bytes_ok (p :: a) -> p <= 128 -> (forall ls, o = Some ls -> valid_name ls) ->
  exists s, rdata_to_str (p :: a ++ match o with Some ls => wire ls | None => [] end) (zlen (p :: a ++ match o with Some ls => wire ls | None => [] end)) 38 1 = Ok s /\
    (str_to_rdata s 38 1 = Ok (p :: a ++ match o with Some ls => wire ls | None => [] end) <-> (p = 0 -> o = None) /\ (p = 128 -> o <> None)).
Proof.
  intros p a o LA B LP VO. set (vs := VOctets (p :: a) :: match o with Some ls => [VName ls] | None => [] end).
  assert (E : canon vs = p :: a ++ match o with Some ls => wire ls | None => [] end) by (unfold canon, vs; destruct o; cbn [map concat canon1 app]; rewrite ?app_nil_r; reflexivity).
  apply Forall_inv in B as Bp. unfold is_byte in Bp.
  assert (W : wf_values (format_of 38 1) vs).
  { change (format_of 38 1) with [FPrefix6; FName]. unfold vs. apply wv_octets; auto; [exists p, a; split; [lia|split; auto]|discriminate|discriminate|]. destruct o as [ls|]; [apply wv_name; auto; constructor|constructor]. }
  assert (L : zlen (canon vs) < 65536).
  { rewrite E, zlen_cons, zlen_app, LA. assert ((128 - p + 7) / 8 <= 16) by (apply (Z.div_le_mono _ 135 8); lia). destruct o as [ls|]; [destruct (VO ls eq_refl) as [_ K]; lia|change (zlen (@nil Z)) with 0; lia]. }
  rewrite <- E. destruct (C102_exactly 38 1 vs ltac:(lia) ltac:(reflexivity) W L) as (s & P & Q). exists s. split; [exact P|]. rewrite Q. change (presentation_of 38) with [PPrefix6; PName]. unfold vs. cbn [all_readable readable]. split.
  - intros ((R1 & R2) & _). split; intros H; [specialize (R2 H)|specialize (R1 H)]; destruct o; try discriminate; auto. destruct R1; discriminate.
  - intros (R1 & R2). split; [|destruct o; cbn; auto]. split; intros H; [specialize (R2 H)|specialize (R1 H)]; destruct o; try congruence; eauto.
Qed.
Print Assumptions C102_a6.

(** SVCB: one parameter of ech. *)
Theorem C102_ech : forall l, bytes_ok l -> zlen l < 65000 ->
  exists s, rdata_to_str ([0; 1; 0] ++ param (5, l)) (zlen ([0; 1; 0] ++ param (5, l))) 64 1 = Ok s /\
    (str_to_rdata s 64 1 = Ok ([0; 1; 0] ++ param (5, l)) <-> 1 <= zlen l <= 189).
Proof.
  intros l B L. pose proof (zlen_nonneg _ l) as LN. set (vs := [VOctets [0; 1]; VName []; VOctets (concat (map param [(5, l)]))]).
  assert (E : canon vs = [0; 1; 0] ++ param (5, l)) by (unfold canon, vs; cbn [map concat canon1 app]; rewrite !app_nil_r; reflexivity).
  assert (PL : zlen (param (5, l)) = 4 + zlen l) by (unfold param; cbn [fst snd]; rewrite !zlen_app; change (zlen (u16 5)) with 2; change (zlen (u16 (zlen l))) with 2; lia).
  assert (BPA : bytes_ok (param (5, l))) by (unfold param; cbn [fst snd]; rewrite !bytes_ok_app; split; [|split; auto]; unfold u16; repeat (apply Forall_cons || apply Forall_nil); unfold is_byte; try lia; try (apply Z.mod_pos_bound; lia); try (split; [apply Z.div_pos; lia|apply Z.div_lt_upper_bound; lia])).
  assert (W : wf_values (format_of 64 1) vs).
  { change (format_of 64 1) with [FFixed 2; FName; FParams]. unfold vs. apply wv_octets; [reflexivity|repeat (apply Forall_cons || apply Forall_nil); unfold is_byte; lia|discriminate|discriminate|]. apply wv_name; [split; [constructor|vm_compute; discriminate]|].
    apply wv_octets; [|cbn [map concat]; rewrite app_nil_r; exact BPA|discriminate|reflexivity|constructor]. exists [(5, l)]. split; [|reflexivity]. constructor; [|constructor]. cbn [fst snd]. split; [|lia]. unfold param_ok. repeat split; try lia. }
  assert (LC : zlen (canon vs) < 65536) by (rewrite E, zlen_app, PL; change (zlen [0; 1; 0]) with 3; lia).
  rewrite <- E. destruct (C102_exactly 64 1 vs ltac:(lia) ltac:(reflexivity) W LC) as (s & P & Q). exists s. split; [exact P|]. rewrite Q. change (presentation_of 64) with [PDec; PName; PParams]. unfold vs. cbn [all_readable readable]. split.
  - intros (_ & _ & R & _). assert (F : Forall (fun kv => param_ok (fst kv) (snd kv)) [(5, l)]) by (constructor; [|constructor]; cbn [fst snd]; unfold param_ok; repeat split; try lia).
    specialize (R [(5, l)] eq_refl F). apply Forall_inv in R. destruct R as (_ & _ & R). apply R. reflexivity.
  - intros R. split; [exact I|]. split; [exact I|]. split; [|exact I]. intros ps EQ _. apply ProofRoundTrip.params_unique in EQ. subst ps. constructor; [|constructor]. unfold readable_param, plain_param. cbn [fst snd]. repeat split; try lia.
Qed.
Print Assumptions C102_ech.

(** Both sides occur. *)
Example C102_ex :
  (exists s, rdata_to_str [0; 1; 0; 0; 5; 0; 1; 7] 8 64 1 = Ok s /\ str_to_rdata s 64 1 = Ok [0; 1; 0; 0; 5; 0; 1; 7]) /\
  (exists s, rdata_to_str [0; 1; 0; 0; 0; 0; 0] 7 64 1 = Ok s /\ str_to_rdata s 64 1 = Err res_parse_error) /\
  (exists s, rdata_to_str [0; 1; 0; 0; 0; 0; 0; 0; 2; 0; 0] 11 64 1 = Ok s /\ s = lit "1 . mandatory=no-default-alpn" /\ str_to_rdata s 64 1 = Ok [0; 1; 0; 0; 0; 0; 2; 0; 2]).
Proof. repeat split; (eexists; split; [vm_compute; reflexivity|]; try (split; [reflexivity|]); vm_compute; reflexivity). Qed.
