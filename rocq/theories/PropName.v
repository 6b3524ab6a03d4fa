(** PropName.v: properties C01-C17 (domain names). *)
From Verif Require Import Base Lib SpecName ModelName ProofUnpack ProofCopy ProofNameOps ProofNameStr ProofStrName ProofNameMore.

(** Example message: "www" at 0, "a" + pointer to 0 at offset 5, self pointer at 9. *)
Definition ex_msg : bytes := [3;119;119;119;0; 1;97;192;0; 192;9].
Definition www : label := [119;119;119].

(** ** C01 *)
(** [m] is exactly the message: success iff the octets denote a name of at most 255 octets; the output is its wire form. *)
Theorem C01_unpack_exact : forall m i w sz, bytes_ok m -> 0 <= i < zlen m ->
  (unpack_name m (zlen m) i = Ok (w, sz) <->
   exists ls, denotes m i ls /\ zlen (wire ls) <= 255 /\ w = wire ls /\ sz = zlen (wire ls)).
Proof. intros m i w sz Hm Hi. apply unpack_denotes; auto. Qed.
Print Assumptions C01_unpack_exact.

(** A start offset outside the message is rejected. *)
Theorem C01_unpack_start : forall m i, i < 0 \/ zlen m <= i -> unpack_name m (zlen m) i = Err res_out_of_bounds.
Proof. intros m i H. unfold unpack_name. replace ((0 >=? zlen m) || (i >=? zlen m) || (i <? 0)) with true by lia. reflexivity. Qed.
Print Assumptions C01_unpack_start.

(** The error codes, each with its exact reason ([reaches]: where the decoder stands after the labels [ls]). *)
Theorem C01_unpack_bad_length_octet : forall m i, bytes_ok m -> 0 <= i < zlen m ->
  (unpack_name m (zlen m) i = Err res_invalid_length_octet <->
   exists ls j c, reaches m (zlen m) i ls j /\ zlen (prewire ls) < 255 /\ octets_at m j [c] /\ 64 <= c <= 191).
Proof.
  intros m i Hm Hi. rewrite unpack_err_iff by auto. split.
  - intros C. inversion C; subst. eauto 10.
  - intros (ls & j & c & R & P & X & Y). eapply uc_len; eauto.
Qed.
Print Assumptions C01_unpack_bad_length_octet.

Theorem C01_unpack_bad_pointer : forall m i, bytes_ok m -> 0 <= i < zlen m ->
  (unpack_name m (zlen m) i = Err res_invalid_compression_pointer <->
   exists ls j hi lo, reaches m (zlen m) i ls j /\ zlen (prewire ls) < 255 /\ octets_at m j [hi; lo] /\ 192 <= hi < 256 /\
     j <= ptr_target hi lo).
Proof.
  intros m i Hm Hi. rewrite unpack_err_iff by auto. split.
  - intros C. inversion C; subst. do 4 eexists; repeat split; eauto; lia.
  - intros (ls & j & hi & lo & R & P & X & Y & Z). eapply uc_ptr; eauto. apply octets_at_bound in X. change (zlen [hi; lo]) with 2 in X. lia.
Qed.
Print Assumptions C01_unpack_bad_pointer.

Theorem C01_unpack_too_long : forall m i, bytes_ok m -> 0 <= i < zlen m ->
  (unpack_name m (zlen m) i = Err res_name_overflow <->
   exists ls j c, reaches m (zlen m) i ls j /\ zlen (prewire ls) < 255 /\ octets_at m j [c] /\ 1 <= c <= 63 /\
     255 < zlen (prewire ls) + (1 + c) + 1).
Proof.
  intros m i Hm Hi. rewrite unpack_err_iff by auto. split.
  - intros C. inversion C; subst. do 3 eexists; repeat split; eauto; lia.
  - intros (ls & j & c & R & P & X & Y & Z). eapply uc_ovf; eauto. lia.
Qed.
Print Assumptions C01_unpack_too_long.

Theorem C01_unpack_cut_label : forall m i, bytes_ok m -> 0 <= i < zlen m ->
  (unpack_name m (zlen m) i = Err res_out_of_bounds <->
   exists ls j c, reaches m (zlen m) i ls j /\ octets_at m j [c] /\ 1 <= c <= 63 /\
     zlen (prewire ls) + (1 + c) + 1 <= 255 /\ zlen m < j + 1 + c).
Proof.
  intros m i Hm Hi. rewrite unpack_err_iff by auto. split.
  - intros C. inversion C; subst.
    + do 3 eexists; repeat split; eauto; lia.
    + apply octets_at_bound in H1. change (zlen [c]) with 1 in *. lia.
  - intros (ls & j & c & R & X & Y & Z & W). eapply uc_oob_label; eauto. lia.
Qed.
Print Assumptions C01_unpack_cut_label.

Example C01_ex : denotes ex_msg 5 [[97]; www] /\ unpack_name ex_msg (zlen ex_msg) 5 = Ok (wire [[97]; www], 7).
Proof.
  split; [|reflexivity]. apply den_label with (l := [97]).
  - split; [cbv; intuition discriminate|repeat constructor; unfold is_byte; lia].
  - exists [3;119;119;119;0], [192;0;192;9]. split; reflexivity.
  - apply den_ptr with (hi := 192) (lo := 0); try (cbv; intuition discriminate).
    + exists [3;119;119;119;0;1;97], [192;9]. split; reflexivity.
    + apply den_label with (l := www).
      * split; [cbv; intuition discriminate|repeat constructor; unfold is_byte; lia].
      * exists [], [0;1;97;192;0;192;9]. split; reflexivity.
      * apply den_root. exists [3;119;119;119], [1;97;192;0;192;9]. split; reflexivity.
Qed.
Example C01_ex_errors :
  unpack_name ex_msg (zlen ex_msg) 9 = Err res_invalid_compression_pointer /\
  unpack_name [64;1] 2 0 = Err res_invalid_length_octet /\ unpack_name [5;1] 2 0 = Err res_out_of_bounds /\
  unpack_name (concat (repeat (63 :: repeat 97 63) 4) ++ [0]) 257 0 = Err res_name_overflow.
Proof. repeat split; reflexivity. Qed.

(** ** C02 *)
(** The result is reached within [unpack_fuel m] loop iterations and no store leaves the 255-octet buffer. *)
Theorem C02_unpack_total : forall m eop i, bytes_ok m ->
  unpack_name m eop i <> NoFuel /\ unpack_name m eop i <> UB OobWrite /\
  (forall w sz, unpack_name m eop i = Ok (w, sz) -> sz = zlen w /\ 1 <= zlen w <= 255).
Proof.
  intros m eop i Hm. split; [|split].
  - destruct (unpack_outcomes m eop i Hm) as [->|[(w & L & ->)|(e & -> & _)]]; discriminate.
  - destruct (unpack_outcomes m eop i Hm) as [->|[(w & L & ->)|(e & -> & _)]]; discriminate.
  - intros w sz E. destruct (unpack_outcomes m eop i Hm) as [F|[(w' & L & F)|(e & F & _)]]; rewrite E in F; try discriminate.
    injection F as -> ->. destruct (Z_lt_ge_dec i eop); [destruct (Z_le_gt_dec 0 i)|].
    2,3: unfold unpack_name in E; replace ((0 >=? eop) || (i >=? eop) || (i <? 0)) with true in E by lia; discriminate.
    destruct (unpack_name_case m eop i Hm ltac:(lia)) as (r & C & F). rewrite E in F. destruct r; simpl in F; try discriminate.
    injection F as ->. rewrite zlen_wire in *. pose proof (zlen_nonneg _ (prewire a)). lia.
Qed.
Print Assumptions C02_unpack_total.
(** A pointer loop through labels is cut by the length limit. *)
Example C02_ex_loop : unpack_name [0;1;97;192;1] 5 3 = Err res_name_overflow.
Proof. vm_compute. reflexivity. Qed.

(** ** C03: false of the code: a name whose labels end exactly at the end of the message makes it read m[len]. *)
Theorem C03_unpack_reads_message_refuted :
  ~ (forall m i, bytes_ok m -> 0 <= i < zlen m -> unpack_name m (zlen m) i <> UB OobRead).
Proof. intros H. apply (H [1;97] 0); [repeat constructor; unfold is_byte; lia|cbv; intuition discriminate|reflexivity]. Qed.
Print Assumptions C03_unpack_reads_message_refuted.

(** The octet read past the end can even make a truncated name succeed. *)
Theorem C03_unpack_uses_stray_octet_refuted :
  ~ (forall msg x y i, bytes_ok msg -> is_byte x -> is_byte y -> 0 <= i < zlen msg ->
       unpack_name (msg ++ [x]) (zlen msg) i = unpack_name (msg ++ [y]) (zlen msg) i).
Proof.
  intros H. specialize (H [1;97] 0 64 0). vm_compute in H.
  assert (B : bytes_ok [1;97]) by (repeat constructor; cbv; intuition discriminate).
  assert (K : is_byte 0) by (unfold is_byte; lia). assert (K2 : is_byte 64) by (unfold is_byte; lia).
  specialize (H B K K2). discriminate H. split; [intros E; discriminate E|reflexivity].
Qed.
Print Assumptions C03_unpack_uses_stray_octet_refuted.

(** What holds: at most the one octet at [eop] is read beyond the message (its successors never matter, and with that octet
    readable there is no out-of-bounds read), and on the exact message the read past the end happens only when the decoding
    runs into the end without a root octet. Missing: reading strictly inside the message. *)
Theorem C03_unpack_reads_partial : forall msg x rest i, bytes_ok msg -> is_byte x -> bytes_ok rest ->
  unpack_name (msg ++ x :: rest) (zlen msg) i <> UB OobRead /\
  unpack_name (msg ++ x :: rest) (zlen msg) i = unpack_name (msg ++ [x]) (zlen msg) i /\
  (unpack_name msg (zlen msg) i <> UB OobRead ->
   unpack_name (msg ++ x :: rest) (zlen msg) i = unpack_name msg (zlen msg) i) /\
  (unpack_name msg (zlen msg) i = UB OobRead ->
   exists ls j, reaches msg (zlen msg) i ls j /\
     (j = zlen msg \/ (j = zlen msg - 1 /\ exists hi, octets_at msg j [hi] /\ 192 <= hi))).
Proof.
  intros msg x rest i H1 H2 H3. assert (HX : bytes_ok (x :: rest)) by (apply bytes_ok_cons; auto).
  split; [|split; [|split]].
  - apply unpack_safe_stray; [apply bytes_ok_app; auto|]. pose proof (zlen_nonneg _ rest). zlia.
  - apply unpack_stray; auto.
  - apply unpack_ext; auto.
  - apply unpack_ub_exact; auto.
Qed.
Print Assumptions C03_unpack_reads_partial.
Example C03_ex : unpack_name [1;97] 2 0 = UB OobRead /\ unpack_name ([1;97] ++ [0]) 2 0 = Ok ([1;97;0], 3).
Proof. split; reflexivity. Qed.

(** ** C04 *)
Theorem C04_skip_exact : forall m i w sz, bytes_ok m -> 0 <= i < zlen m -> unpack_name m (zlen m) i = Ok (w, sz) ->
  exists e, extent m i e /\ skip_name m (zlen m) i = Ok (i + e).
Proof.
  intros m i w sz Hm Hi E. apply C01_unpack_exact in E as (ls & D & _); auto. destruct (denotes_extent _ _ _ D) as (e & X).
  exists e. split; auto. apply skip_extent; auto. apply extent_bound in X. lia.
Qed.
Print Assumptions C04_skip_exact.
(** The extent is a function of the message, so skip_name's result is determined. *)
Theorem C04_extent_unique : forall m i e e', extent m i e -> extent m i e' -> e = e'.
Proof. exact extent_det. Qed.
Print Assumptions C04_extent_unique.
Theorem C04_skip_bounded : forall m eod i, bytes_ok m -> 0 <= i <= eod -> eod < zlen m ->
  exists s, skip_name m eod i = Ok s /\ i <= s <= eod.
Proof. intros m eod i Hm Hi L. destruct (skip_total m eod i Hm Hi) as [K|[_ K]]; [auto|lia]. Qed.
Print Assumptions C04_skip_bounded.
Theorem C04_skip_never_past_end : forall m eod i s, skip_name m eod i = Ok s -> s <= eod.
Proof. exact skip_bound. Qed.
Print Assumptions C04_skip_never_past_end.
Example C04_ex : skip_name ex_msg (zlen ex_msg) 5 = Ok 9 /\ skip_name ex_msg (zlen ex_msg) 0 = Ok 5.
Proof. split; reflexivity. Qed.

(** ** C05 *)
Theorem C05_copy_exact : forall m i w sz, bytes_ok m -> 0 <= i < zlen m ->
  (copy_uname m (zlen m) i = Ok (w, sz) <->
   exists ls, valid_name ls /\ octets_at m i (wire ls) /\ w = wire ls /\ sz = zlen (wire ls)).
Proof. exact copy_exact. Qed.
Print Assumptions C05_copy_exact.
Theorem C05_copy_rejects_pointers : forall m i, bytes_ok m -> 0 <= i < zlen m ->
  (copy_uname m (zlen m) i = Err res_invalid_length_octet <->
   exists ls c, valid_labels ls /\ octets_at m i (prewire ls ++ [c]) /\ zlen (prewire ls) < 255 /\ 64 <= c).
Proof.
  intros m i Hm Hi. rewrite copy_err_iff by (auto; lia). split.
  - intros C. inversion C; subst. eauto 10.
  - intros (ls & c & V & O & L & C). apply (cc_len m (zlen m) i 255 ls c); auto. apply octets_at_bound in O. zl. lia.
Qed.
Print Assumptions C05_copy_rejects_pointers.
Theorem C05_copy_safe : forall m eop i, bytes_ok m -> eop <= zlen m ->
  copy_uname m eop i <> NoFuel /\ copy_uname m eop i <> UB OobWrite /\
  (forall w sz, copy_uname m eop i = Ok (w, sz) -> sz = zlen w /\ zlen w <= 255 /\ unpack_name m eop i = Ok (w, sz)) /\
  (eop < zlen m -> copy_uname m eop i <> UB OobRead).
Proof.
  intros m eop i Hm L. repeat split.
  - destruct (copy_outcomes m eop i Hm L) as [->|[(w & L' & ->)|(e & -> & _)]]; discriminate.
  - destruct (copy_outcomes m eop i Hm L) as [->|[(w & L' & ->)|(e & -> & _)]]; discriminate.
  - destruct (copy_outcomes m eop i Hm L) as [F|[(w' & L' & F)|(e & F & _)]]; rewrite H in F; try discriminate. congruence.
  - destruct (copy_outcomes m eop i Hm L) as [F|[(w' & L' & F)|(e & F & _)]]; rewrite H in F; try discriminate. congruence.
  - eapply copy_ok_unpack; eauto.
  - intros S E. apply copy_ub in E; auto. lia.
Qed.
Print Assumptions C05_copy_safe.
Example C05_ex : copy_uname ex_msg (zlen ex_msg) 0 = Ok (wire [www], 5) /\ copy_uname ex_msg (zlen ex_msg) 5 = Err res_invalid_length_octet.
Proof. split; reflexivity. Qed.

(** ** C06 *)
Theorem C06_len_uname_wire : forall ls rest n, valid_name ls -> bytes_ok rest ->
  zlen (wire ls) <= n <= zlen (wire ls ++ rest) -> n < 2 ^ 32 - 1 ->
  len_uname (wire ls ++ rest) n = Ok (zlen (wire ls)).
Proof. exact len_uname_wire. Qed.
Print Assumptions C06_len_uname_wire.
(** The upper bound is false: two octets 01 61 are measured as three. *)
Theorem C06_len_uname_bound_refuted :
  ~ (forall p sz, bytes_ok p -> len_uname p (zlen p) = Ok sz -> sz <= zlen p).
Proof. intros H. specialize (H [1;97] 3 ltac:(repeat constructor; unfold is_byte; lia) eq_refl). cbv in H. congruence. Qed.
Print Assumptions C06_len_uname_bound_refuted.
(** Exact set of successes: well-formed names, and names cut at a label boundary (measured one too long). *)
Theorem C06_len_uname_partial : forall p n sz, bytes_ok p -> 0 < n < 2 ^ 32 - 1 -> n <= zlen p ->
  (len_uname p n = Ok sz <->
   (exists ls rest, valid_name ls /\ p = wire ls ++ rest /\ zlen (wire ls) <= n /\ sz = zlen (wire ls)) \/
   (exists ls rest, valid_labels ls /\ ls <> [] /\ p = prewire ls ++ rest /\ zlen (prewire ls) = n /\ n < 255 /\ sz = n + 1)).
Proof. exact len_uname_iff. Qed.
Print Assumptions C06_len_uname_partial.
Example C06_ex : len_uname (wire [www; [97]] ++ [9;9]) 9 = Ok 7.
Proof. reflexivity. Qed.

(** ** C07 *)
Theorem C07_domain_to_str_presents : forall ls rest n, valid_name ls -> zlen (wire ls) <= n ->
  domain_to_str (wire ls ++ rest) n = Ok (pres_name ls, zlen (wire ls)).
Proof. exact domain_to_str_wire. Qed.
Print Assumptions C07_domain_to_str_presents.
(** For any source of at most 255 octets the text and its NUL fit in 1025 octets; the only other outcome is a read at or
    past the end of the source (an unterminated name). *)
Theorem C07_domain_to_str_fits : forall src n, 0 <= n <= 255 ->
  (exists s k, domain_to_str src n = Ok (s, k) /\ zlen s + 1 <= 1025) \/
  (domain_to_str src n = UB OobRead /\ zlen src <= n).
Proof. exact domain_to_str_any. Qed.
Print Assumptions C07_domain_to_str_fits.
Example C07_ex : domain_to_str (wire [[119;46;0]; [97]]) 7 = Ok ([119;92;46;92;48;48;48;46;97;46], 7).
Proof. reflexivity. Qed.

(** ** C08 *)
Theorem C08_name_roundtrip : forall ls after, valid_name ls ->
  exists s, domain_to_str (wire ls) (zlen (wire ls)) = Ok (s, zlen (wire ls)) /\
    str_to_name_case s after = Ok (wire ls, zlen (wire ls)) /\
    str_to_name s after = Ok (wire (lower_name ls), zlen (wire ls)).
Proof.
  intros ls after V. exists (pres_name ls). split; [|split].
  - pose proof (domain_to_str_wire ls [] (zlen (wire ls)) V ltac:(lia)) as K. rewrite app_nil_r in K. exact K.
  - apply roundtrip_case; auto.
  - rewrite roundtrip_down by auto. f_equal. f_equal. destruct V as [V _]. rewrite <- map_dc_wire by auto. zl. reflexivity.
Qed.
Print Assumptions C08_name_roundtrip.
Example C08_ex : valid_name [[65;46;92;200]; [0]] /\
  str_to_name_case (pres_name [[65;46;92;200]; [0]]) [] = Ok ([4;65;46;92;200;1;0;0], 8).
Proof.
  split; [|reflexivity]. split; [|cbv; intuition discriminate].
  repeat constructor; unfold is_byte; cbv; intuition discriminate.
Qed.

(** ** C09 *)
Theorem C09_str_to_name_grammar : forall s after w n, c_string s -> dangling s = false ->
  (str_to_name_case s after = Ok (w, n) <->
   exists ls, name_text s ls /\ zlen (wire ls) <= 255 /\ w = wire ls /\ n = zlen (wire ls)).
Proof.
  intros s after w n CS D. unfold str_to_name_case. rewrite str_to_name_gen_iff by auto.
  split; intros (ls & H & R); exists ls; apply stext_name_text in H; auto.
Qed.
Print Assumptions C09_str_to_name_grammar.
(** A grammatical text that is too long gets exactly name_overflow; other failures are parse_error or name_overflow. *)
Theorem C09_str_to_name_errors : forall s after, c_string s ->
  (forall ls, name_text s ls -> 255 < zlen (wire ls) -> str_to_name_case s after = Err res_name_overflow) /\
  (dangling s = false -> forall e, str_to_name_case s after = Err e -> e = res_parse_error \/ e = res_name_overflow).
Proof.
  intros s after CS. split.
  - intros ls H L. apply stext_name_text in H. unfold str_to_name_case. rewrite (str_to_name_gen_grammatical false s after ls) by auto.
    replace (_ <=? 255) with false by lia. reflexivity.
  - intros D e E. pose proof (str_to_name_gen_sound false s after CS D) as K. unfold str_to_name_case in E. rewrite E in K. exact K.
Qed.
Print Assumptions C09_str_to_name_errors.
Example C09_ex : name_text [97;46;92;48;54;53] [[97];[65]] /\
  str_to_name_case [97;46;92;48;54;53] [] = Ok ([1;97;1;65;0], 5) /\ str_to_name_case [97;46;46;98] [] = Err res_parse_error.
Proof.
  split; [|split; reflexivity]. apply nt_labels. apply (dt_more [97] [97] [92;48;54;53] [[65]]); try discriminate.
  - apply ptext_one. constructor; lia.
  - apply dt_last; [|discriminate]. apply ptext_one. apply (pc_ddd 48 54 53); unfold digit; lia.
Qed.

(** ** C10: false: labels longer than 63 octets are accepted. *)
Theorem C10_str_to_name_valid_refuted :
  ~ (forall s after w n, c_string s -> dangling s = false -> str_to_name s after = Ok (w, n) -> exists ls, valid_name ls /\ w = wire ls).
Proof.
  intros H. specialize (H (repeat 97 64) [] (64 :: repeat 97 64 ++ [0]) 66).
  destruct H as (ls & [V L] & E).
  - apply Forall_forall. intros x I. apply repeat_spec in I. lia.
  - reflexivity.
  - reflexivity.
  - destruct ls as [|l ls]; [discriminate E|]. rewrite wire_cons in E. apply valid_labels_cons in V as [[V _] _]. injection E as E _. lia.
Qed.
Print Assumptions C10_str_to_name_valid_refuted.
(** What holds: the result is the wire form of non-empty labels, at most 255 octets, and no store leaves the 255-octet buffer.
    Missing: the 63-octet limit on labels. *)
Theorem C10_str_to_name_partial : forall s after, c_string s -> dangling s = false -> forall down w n,
  str_to_name_gen down s after = Ok (w, n) ->
  exists ls, w = wire ls /\ n = zlen w /\ n <= 255 /\ Forall (fun l => l <> []) ls.
Proof.
  intros s after CS D down w n E. apply str_to_name_gen_iff in E as (ls & H & L & -> & ->); auto. exists ls. repeat split; auto.
  destruct H as [|? ? _ R]; [constructor|].
  assert (G : forall t cur x, rtext (gfun down) t cur x -> Forall (fun l : label => l <> []) x).
  { clear. intros t cur x R. induction R; auto. }
  eapply G; eauto.
Qed.
Print Assumptions C10_str_to_name_partial.
Theorem C10_str_to_name_no_overrun : forall s after down, c_string s -> dangling s = false ->
  str_to_name_gen down s after <> UB OobWrite.
Proof. intros s after down CS D E. pose proof (str_to_name_gen_sound down s after CS D) as K. rewrite E in K. exact K. Qed.
Print Assumptions C10_str_to_name_no_overrun.
Example C10_ex : str_to_name_case (repeat 97 64) [] = Ok (64 :: repeat 97 64 ++ [0], 66).
Proof. reflexivity. Qed.

(** ** C11: false: after a dangling backslash reading continues past the terminator. *)
Theorem C11_str_to_name_reads_string_refuted :
  ~ (forall s, c_string s -> str_to_name s [] <> UB OobRead).
Proof. intros H. apply (H [92]); [repeat constructor; lia|reflexivity]. Qed.
Print Assumptions C11_str_to_name_reads_string_refuted.
(** What holds: no read past the NUL, and termination, for every string not ending in a dangling backslash. *)
Theorem C11_str_to_name_reads_partial : forall s down, c_string s -> dangling s = false ->
  str_to_name_gen down s [] <> NoFuel /\ forall f, str_to_name_gen down s [] <> UB f.
Proof.
  intros s down CS D. pose proof (str_to_name_gen_sound down s [] CS D) as K.
  split; [intros E|intros f E]; rewrite E in K; exact K.
Qed.
Print Assumptions C11_str_to_name_reads_partial.
Example C11_ex : dangling [97;92;92] = false /\ str_to_name [97;92;92] [] = Ok ([2;97;92;0], 4).
Proof. split; reflexivity. Qed.

(** ** C12: false for escaped capitals. *)
Theorem C12_downcase_variant_refuted :
  ~ (forall s after ls ls', c_string s -> dangling s = false ->
      str_to_name_case s after = Ok (wire ls, zlen (wire ls)) -> str_to_name s after = Ok (wire ls', zlen (wire ls')) ->
      valid_name ls -> valid_name ls' -> ls' = lower_name ls).
Proof.
  intros H. specialize (H [92;65] [] [[65]] [[65]]). 
  assert (V : valid_name [[65]]) by (split; [repeat constructor; cbv; intuition discriminate|cbv; intuition discriminate]).
  specialize (H ltac:(repeat constructor; lia) eq_refl eq_refl eq_refl V V). discriminate.
Qed.
Print Assumptions C12_downcase_variant_refuted.
(** What holds for every string: both variants succeed or fail alike, with the same length, and differ only in that some
    capitals are lowered. *)
Theorem C12_variants_agree_partial : forall s after,
  match str_to_name_case s after, str_to_name s after with
  | Ok (w, n), Ok (w', n') => n = n' /\ Forall2 (fun a b => b = a \/ (65 <= a <= 90 /\ b = a + 32)) w w'
  | Err e, Err e' => e = e'
  | UB f, UB f' => f = f'
  | NoFuel, NoFuel => True
  | _, _ => False
  end.
Proof. exact str_to_name_sim. Qed.
Print Assumptions C12_variants_agree_partial.
(** The full claim for strings without backslash. *)
Theorem C12_downcase_variant_partial : forall s after ls, c_string s -> ~ In 92 s ->
  str_to_name_case s after = Ok (wire ls, zlen (wire ls)) -> valid_name ls ->
  str_to_name s after = Ok (wire (lower_name ls), zlen (wire ls)).
Proof.
  intros s after ls CS NB E V. pose proof (dangling_no_bs s NB) as D.
  apply str_to_name_gen_iff in E as (ls2 & H & L & E1 & E2); auto. cbn [gfun] in H.
  assert (X : stext dc s (map (map dc) ls2)).
  { destruct H as [s R|s ls2 NR R]; [apply st_root; auto|]. apply st_labels; auto. apply (rtext_dc s [] ls2); auto. }
  assert (SAME : forall a b : lname, wire a = wire b -> Forall (fun l : label => l <> []) b -> valid_labels a -> a = b).
  { clear. induction a as [|x a IH]; intros [|y b] E F V; auto.
    - rewrite wire_cons in E. change (wire []) with [0] in E. injection E as E _. inversion F; subst. exfalso. apply H1. apply zlen_zero. lia.
    - rewrite wire_cons in E. change (wire []) with [0] in E. injection E as E _. apply valid_labels_cons in V as [[V _] _]. lia.
    - rewrite !wire_cons in E. injection E as E1 E2. assert (x = y).
      { rewrite <- (firstn_app_exact _ x (wire a) _ eq_refl), E2. apply firstn_app_exact; auto. }
      subst y. apply app_inv_head in E2. inversion F; subst. apply valid_labels_cons in V as [_ V]. f_equal. apply IH; auto. }
  assert (ls = ls2).
  { apply SAME; auto; [|apply V]. destruct H as [|s ls2 _ R]; [constructor|]. clear -R.
    assert (G : forall t cur x, rtext id t cur x -> Forall (fun l : label => l <> []) x).
    { clear. intros t cur x R. induction R; auto. }
    eapply G; eauto. }
  subst ls2. rewrite map_map_dc in X by apply V. unfold str_to_name.
  rewrite (str_to_name_gen_grammatical true s after (lower_name ls)) by auto.
  assert (LW : zlen (wire (lower_name ls)) = zlen (wire ls)) by (rewrite <- map_dc_wire by apply V; zl; reflexivity).
  rewrite LW. destruct V as [_ V]. replace (_ <=? 255) with true by lia. reflexivity.
Qed.
Print Assumptions C12_downcase_variant_partial.
Example C12_ex : str_to_name_case [65;46;98] [] = Ok ([1;65;1;98;0], 5) /\ str_to_name [65;46;98] [] = Ok ([1;97;1;98;0], 5).
Proof. split; reflexivity. Qed.

(** ** C13 *)
Theorem C13_reverse : forall ls rest, valid_labels ls ->
  reverse_name (wire ls ++ rest) (zlen (wire ls)) = Ok (wire (rev ls)).
Proof. exact reverse_name_wire. Qed.
Print Assumptions C13_reverse.
Theorem C13_reverse_involutive : forall ls, valid_name ls ->
  exists r, reverse_name (wire ls) (zlen (wire ls)) = Ok r /\ zlen r = zlen (wire ls) /\ reverse_name r (zlen r) = Ok (wire ls).
Proof.
  intros ls [V L]. exists (wire (rev ls)).
  pose proof (reverse_name_wire ls [] V) as K1. rewrite app_nil_r in K1.
  pose proof (reverse_name_wire (rev ls) [] (valid_labels_rev _ V)) as K2. rewrite app_nil_r, rev_involutive in K2.
  repeat split; auto. rewrite !zlen_wire, zlen_prewire_rev. reflexivity.
Qed.
Print Assumptions C13_reverse_involutive.
Example C13_ex : reverse_name (wire [www; [97]]) 7 = Ok (wire [[97]; www]).
Proof. reflexivity. Qed.

(** ** C14 *)
Theorem C14_count_labels : forall ls rest, valid_name ls ->
  count_labels (wire ls ++ rest) (zlen (wire ls)) = Ok (zlen ls).
Proof. intros ls rest [V L]. apply count_labels_wire; auto. rewrite zlen_wire. lia. Qed.
Print Assumptions C14_count_labels.
Theorem C14_count_labels_reserved : forall ls c rest len, valid_labels ls -> zlen (prewire ls) <= len -> 64 <= c ->
  count_labels (prewire ls ++ c :: rest) len = Err res_invalid_length_octet.
Proof. exact count_labels_reserved. Qed.
Print Assumptions C14_count_labels_reserved.
Theorem C14_count_labels_overflow : forall ls c rest len, valid_labels ls -> zlen (prewire ls) <= len -> 1 <= c <= 63 ->
  len < zlen (prewire ls) + 1 + c -> count_labels (prewire ls ++ c :: rest) len = Err res_name_overflow.
Proof. exact count_labels_overflow. Qed.
Print Assumptions C14_count_labels_overflow.
Example C14_ex : count_labels (wire [www; [97]]) 7 = Ok 2 /\ count_labels [1;97;192;0] 4 = Err res_invalid_length_octet
  /\ count_labels [5;97] 2 = Err res_name_overflow.
Proof. repeat split; reflexivity. Qed.

(** ** C15 *)
Theorem C15_left_chop : forall l ls rest, valid_name (l :: ls) ->
  left_chop (wire (l :: ls) ++ rest) (zlen (wire (l :: ls))) = Ok (wire ls ++ rest, zlen (wire ls)).
Proof. exact left_chop_cons. Qed.
Print Assumptions C15_left_chop.
Theorem C15_left_chop_root : forall rest, left_chop (wire [] ++ rest) 1 = Ok (wire [] ++ rest, 1).
Proof. exact left_chop_root. Qed.
Print Assumptions C15_left_chop_root.
(** Chopping as often as count_labels says reaches the root. *)
Theorem C15_chop_to_root : forall ls rest, valid_name ls -> forall n,
  count_labels (wire ls ++ rest) (zlen (wire ls)) = Ok n ->
  chop_n (Z.to_nat n) (wire ls ++ rest) (zlen (wire ls)) = Ok (wire [] ++ rest, 1).
Proof.
  intros ls rest V n E. rewrite C14_count_labels in E by auto. injection E as <-. rewrite zlen_to_nat. apply chop_n_all; auto.
Qed.
Print Assumptions C15_chop_to_root.
Example C15_ex : left_chop (wire [www; [97]]) 7 = Ok (wire [[97]], 3).
Proof. reflexivity. Qed.

(** ** C16 *)
Theorem C16_is_subdomain : forall n0 n1 r0 r1, valid_name n0 -> valid_name n1 ->
  exists b, is_subdomain (wire n0 ++ r0) (zlen (wire n0)) (wire n1 ++ r1) (zlen (wire n1)) = Ok b /\
            (b = true <-> proper_suffix n1 n0).
Proof. exact is_subdomain_ok. Qed.
Print Assumptions C16_is_subdomain.
Definition subdom (n0 n1 : lname) : outcome bool := is_subdomain (wire n0) (zlen (wire n0)) (wire n1) (zlen (wire n1)).
Theorem C16_subdomain_order : forall a b c, valid_name a -> valid_name b -> valid_name c ->
  subdom a a = Ok false /\
  (subdom a b = Ok true -> subdom b a = Ok false) /\
  (subdom a b = Ok true -> subdom b c = Ok true -> subdom a c = Ok true) /\
  (a <> [] -> subdom a [] = Ok true).
Proof.
  intros a b c Va Vb Vc.
  assert (S : forall x y, valid_name x -> valid_name y -> exists t, subdom x y = Ok t /\ (t = true <-> proper_suffix y x)).
  { intros x y Vx Vy. destruct (is_subdomain_ok x y [] [] Vx Vy) as (t & E & H). rewrite !app_nil_r in E. eauto. }
  assert (LEN : forall x y : lname, proper_suffix y x -> zlen y < zlen x).
  { intros x y (p & NE & ->). destruct p; [congruence|]. zl. pose proof (zlen_nonneg _ p). lia. }
  assert (F : forall x y, valid_name x -> valid_name y -> ~ proper_suffix y x -> subdom x y = Ok false).
  { intros x y Vx Vy N. destruct (S x y Vx Vy) as ([|] & E & H); auto. exfalso. apply N, H. auto. }
  assert (T : forall x y, valid_name x -> valid_name y -> (subdom x y = Ok true <-> proper_suffix y x)).
  { intros x y Vx Vy. destruct (S x y Vx Vy) as (t & E & H). rewrite E, <- H. split; congruence. }
  repeat split.
  - apply F; auto. intros P. apply LEN in P. lia.
  - intros H. apply T in H; auto. apply F; auto. intros P. apply LEN in P. apply LEN in H. lia.
  - intros H1 H2. apply T in H1 as (p & NE & ->); auto. apply T in H2 as (q & NE2 & ->); auto. apply T; auto.
    exists (p ++ q). split; [destruct p; [congruence|discriminate]|rewrite <- app_assoc; auto].
  - intros NE. apply T; auto; [split; [constructor|cbv; intuition discriminate]|]. exists a. split; auto. rewrite app_nil_r; auto.
Qed.
Print Assumptions C16_subdomain_order.
Example C16_ex : subdom [[97]; www] [www] = Ok true /\ subdom [www] [[97]; www] = Ok false /\ subdom [[97]; [87]] [[119]] = Ok false.
Proof. repeat split; reflexivity. Qed.

(** ** C17 *)
(** [d]: the len octets of the name, [rest]: whatever follows in memory. *)
Theorem C17_downcase_name : forall d rest, bytes_ok d ->
  downcase_name (d ++ rest) (zlen d) = Ok (lower_label d ++ rest).
Proof. intros d rest H. rewrite downcase_name_ok, map_dc_lower by auto. reflexivity. Qed.
Print Assumptions C17_downcase_name.
Theorem C17_downcase_idempotent : forall d rest d', bytes_ok d -> downcase_name (d ++ rest) (zlen d) = Ok d' ->
  downcase_name d' (zlen d) = Ok d'.
Proof.
  intros d rest d' H E. rewrite downcase_name_ok in E. injection E as <-.
  pose proof (downcase_name_ok (map dc d) rest) as K. rewrite zlen_map in K. rewrite K. f_equal. f_equal.
  rewrite map_map. apply map_ext. apply dc_idem.
Qed.
Print Assumptions C17_downcase_idempotent.
Theorem C17_downcase_valid : forall ls rest, valid_name ls ->
  downcase_name (wire ls ++ rest) (zlen (wire ls)) = Ok (wire (lower_name ls) ++ rest) /\ valid_name (lower_name ls).
Proof. intros ls rest V. split; [|apply lower_valid; auto]. rewrite downcase_name_ok, map_dc_wire by apply V. reflexivity. Qed.
Print Assumptions C17_downcase_valid.
Example C17_ex : downcase_name [3;65;90;91;0;66] 5 = Ok [3;97;122;91;0;66].
Proof. reflexivity. Qed.
