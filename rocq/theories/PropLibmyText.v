(** PropLibmyText.v: C78..C82, hex_decode, print_string, string_replace. *)
From Verif Require Import Base Lib Libc ModelLibmyText SpecFormat SpecLibmyText ProofLibmyText.

(** ** C78: hex_decode accepts exactly the non-empty texts of two hexadecimal digits per octet, and gives their octets; nothing
    outside the string is read and the buffer is not overrun *)
Theorem C78_hex_decode : forall s, zlen s < 2 ^ 63 ->
  exists r, hex_decode s = Ok r /\ forall raw, r = Some raw <-> s <> [] /\ hex_text s raw.
Proof.
  intros s Z0. unfold hex_decode. destruct ((zlen s =? 0) || negb (zlen s mod 2 =? 0)) eqn:C.
  - exists None. split; [reflexivity|]. intros raw. split; [discriminate|]. intros [N H]. exfalso. pose proof (hex_text_even _ _ H) as E. rewrite E in C. rewrite Z.mul_comm, Z.mod_mul in C by lia. destruct s; [congruence|]. rewrite zlen_cons in E. pose proof (zlen_nonneg _ s). lia.
  - assert (M : zlen s mod 2 = 0) by lia. pose proof (Z.div_mod (zlen s) 2 ltac:(lia)) as D. pose proof (zlen_nonneg _ s) as ZS. assert (Z.to_nat (zlen s / 2) = Z.to_nat (zlen s / 2)) by reflexivity.
    destruct (hex_loop_ok (Z.to_nat (zlen s / 2)) s (length s) (zlen s / 2) []) as (r & R1 & R2); [unfold zlen in *; lia|unfold zlen in *; lia|change (zlen (@nil Z)) with 0; lia|exact Z0|].
    exists r. split; [exact R1|]. intros raw. destruct r as [o|].
    + destruct R2 as (o' & E & T). cbn [app] in E. subst o'. split; [intros E; injection E as <-; split; [intros ->; discriminate|exact T]|]. intros [_ T']. f_equal. apply (hex_text_fun _ _ T _ T').
    + split; [discriminate|]. intros [_ T]. destruct (R2 raw T).
Qed.
Print Assumptions C78_hex_decode.
Example C78_ex : hex_decode (lit "00fFa9") = Ok (Some [0; 255; 169]) /\ hex_decode (lit "00f") = Ok None /\ hex_decode (lit "0g") = Ok None /\ hex_decode [] = Ok None.
Proof. vm_compute. repeat split; reflexivity. Qed.
Example C78_ex_text : hex_text (lit "fF") [255].
Proof. apply (ht_cons 102 70 15 15 [] []); [apply (hd_low 102)|apply (hd_upp 70)|constructor]; lia. Qed.

(** ** C79: print_string writes a quoted string of printable characters that reads as the data, if that has no backslash;
    no octet beyond the data is read *)
Theorem C79_printable : forall d rest, Forall (fun c => 0 <= c < 256) d ->
  exists t, print_string (d ++ rest) (zlen d) = Ok (34 :: t) /\ Forall (fun x => 32 <= x <= 126) t /\ exists body, t = body ++ [34].
Proof.
  intros d rest F. exists (concat (map print_octet d) ++ [34]). split; [apply print_string_ok|]. split; [|eexists; reflexivity]. apply Forall_app. split; [|repeat constructor; lia].
  induction d as [|c d IH]; [constructor|]. cbn [map concat]. apply Forall_app. split; [apply print_octet_printable; exact (Forall_inv F)|apply IH; exact (Forall_inv_tail F)].
Qed.
Print Assumptions C79_printable.
Theorem C79_reads_back : forall d rest, Forall (fun c => 0 <= c < 256 /\ c <> 92) d ->
  exists t, print_string (d ++ rest) (zlen d) = Ok (34 :: t) /\ quoted d t.
Proof. intros d rest F. exists (concat (map print_octet d) ++ [34]). split; [apply print_string_ok|apply print_quoted; exact F]. Qed.
Print Assumptions C79_reads_back.
(** Reading is unambiguous, also about where the string ends. *)
Theorem C79_unambiguous : forall d t d' u, quoted d t -> quoted d' (t ++ u) -> d = d' /\ u = [].
Proof. intros d t d' u H H'. exact (quoted_fun d t H d' u H'). Qed.
Print Assumptions C79_unambiguous.
Example C79_ex : print_string [104; 34; 0; 200; 7] 4 = Ok ([34] ++ [104] ++ [92; 34] ++ lit "\x00" ++ lit "\xc8" ++ [34]).
Proof. vm_compute. reflexivity. Qed.

(** ** C80: with backslashes it does not hold: two different data print alike, and a printed string can fail to end *)
Theorem C80_lossless_refuted :
  (exists d d', d <> d' /\ print_string d (zlen d) = print_string d' (zlen d')) /\
  (exists d t, print_string d (zlen d) = Ok (34 :: t) /\ forall d', ~ quoted d' t).
Proof.
  split.
  - exists [1], [92; 120; 48; 49]. split; [discriminate|vm_compute; reflexivity].
  - exists [92], [92; 34]. split; [vm_compute; reflexivity|]. intros d' H. inversion H as [|? ? ? C N1 N2 H1|? ? H1|]; subst; [congruence|]. inversion H1.
Qed.
Print Assumptions C80_lossless_refuted.

(** ** C81: string_replace replaces the leftmost occurrences, not overlapping, for every non-empty old; enough iterations: the
    length of the string and one *)
Theorem C81_replace : forall str old new, old <> [] ->
  exists r, string_replace (S (length str)) str old new = Ok r /\ replaced old new str r.
Proof.
  intros str old new N. unfold string_replace. destruct (strstr str old) as [k|] eqn:S0.
  - destruct (replace_ok old new N (S (length str)) str []) as (r & R1 & R2); [lia|]. exists r. split; [exact R1|exact R2].
  - exists str. split; [reflexivity|]. apply r_none, strstr_none, S0.
Qed.
Print Assumptions C81_replace.
Theorem C81_unique : forall old new s r r', replaced old new s r -> replaced old new s r' -> r = r'.
Proof. intros old new s r r' H H'. exact (replaced_fun old new s r H r' H'). Qed.
Print Assumptions C81_unique.
Example C81_ex : string_replace 20 (lit "aaa.bab") (lit "aa") (lit "<>") = Ok (lit "<>a.bab") /\ string_replace 20 (lit "xaxa") (lit "xa") (lit "xax") = Ok (lit "xaxxax").
Proof. vm_compute. split; reflexivity. Qed.
(** ** C82: with an empty old string_replace never returns, whatever the string *)
Theorem C82_terminates_refuted : forall str new fuel, string_replace fuel str [] new = NoFuel.
Proof.
  assert (S0 : forall s, strstr s [] = Some 0%nat) by (intros [|]; reflexivity).
  assert (L : forall fuel str new u, replace_loop fuel str [] new u = NoFuel).
  { induction fuel as [|fuel IH]; intros str new u; [reflexivity|]. cbn [replace_loop]. rewrite S0. cbn [skipn]. replace (zlen (@nil Z) >=? zlen str + 1) with false by (change (zlen (@nil Z)) with 0; pose proof (zlen_nonneg _ str); lia). apply IH. }
  intros str new fuel. unfold string_replace. rewrite S0. apply L.
Qed.
Print Assumptions C82_terminates_refuted.
