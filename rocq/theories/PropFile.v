(** PropFile.v: C57, loading a file of names.  Specification: SpecFile.v. *)
From Verif Require Import Base Lib ModelName SpecName ProofStrName ModelFile SpecFile ProofFile.

(** C57.  For every file without NUL octets whose lines have at most 1279 octets and whose name lines do not end in a
    lone backslash: the callback gets, in order, exactly the names of the lines that are not skipped, up to the first
    invalid one, and that line's error (or success) is returned.  Missing from the English property: lines ending in a
    lone backslash and lines containing NUL (see the _refuted theorems). *)
Theorem C57_lines_partial : forall t,
  exists ls, lines_of t ls /\ (forall ls', lines_of t ls' -> ls' = ls) /\
  (Forall (fun l => c_string l /\ zlen l <= 1279 /\ (skipped l \/ dangling l = false)) ls ->
   exists ns r, file_load_names (Some t) = Ok (ns, r) /\ loads ls ns r /\
     (forall ns' r', loads ls ns' r' -> ns' = ns /\ r' = r)).
Proof.
  intros t. destruct (lines_exist t) as (ls & LO). exists ls. split; [auto|]. split.
  { intros ls' LO'. eapply lines_det; eauto. }
  intros F. destruct (load_lines t ls LO F (S (length t)) (repeat 0 1280)) as (ns & r & E & L).
  - rewrite zlen_repeat. reflexivity.
  - lia.
  - exists ns, r. split; [exact E|]. split; [auto|]. intros ns' r' L'. eapply loads_det; eauto.
Qed.

(** C57.  In particular the names delivered are wire forms of at most 255 octets read off some line by the name grammar
    (up to the case of letters), and a failure is a parse error or an overlong name. *)
Theorem C57_names : forall ls ns r, Forall (fun l => c_string l /\ (skipped l \/ dangling l = false)) ls -> loads ls ns r ->
  Forall (fun nm => exists l lbls, In l ls /\ ~ skipped l /\ name_text l lbls /\ snd nm = zlen (wire lbls) /\ zlen (wire lbls) <= 255 /\
     Forall2 (fun a b => b = a \/ (65 <= a <= 90 /\ b = a + 32)) (wire lbls) (fst nm)) ns /\
  (r = res_success \/ r = res_parse_error \/ r = res_name_overflow).
Proof.
  intros ls ns r F L. induction L as [|l ls ns r S L IH|l ls nm ns r S E L IH|l ls e S E].
  - split; [constructor|auto].
  - inversion F; subst. destruct (IH H2) as (A & B). split; auto. eapply Forall_impl; [|exact A].
    intros nm (l' & x & I & R). exists l', x. split; [right; auto|auto].
  - inversion F as [|? ? (C & D) F2]; subst. destruct (IH F2) as (A & B). split; auto. constructor.
    + destruct D as [D|D]; [contradiction|]. destruct nm as (w, n).
      pose proof (str_to_name_sim l []) as SIM. rewrite E in SIM.
      destruct (str_to_name_case l []) as [(w', n')|r'|u|] eqn:EC; try contradiction.
      unfold str_to_name_case in EC. apply str_to_name_gen_iff in EC as (x & X & LE & -> & ->); auto.
      apply stext_name_text in X. destruct SIM as (<- & SIM). exists l, x. cbn [fst snd].
      split; [left; auto|]. auto.
    + eapply Forall_impl; [|exact A]. intros nm' (l' & x & I & R). exists l', x. split; [right; auto|auto].
  - inversion F as [|? ? (C & D) F2]; subst. split; [constructor|]. destruct D as [D|D]; [contradiction|].
    pose proof (str_to_name_gen_sound true l [] C D) as K. unfold str_to_name in E. rewrite E in K. right. exact K.
Qed.

(** C57.  A file that cannot be opened: failure, no callback. *)
Theorem C57_open : file_load_names None = Ok ([], res_failure).
Proof. reflexivity. Qed.

(** C57 fails for a line that is a lone backslash: the name reader runs past the line array. *)
Theorem C57_backslash_refuted :
  ~ (forall t ls, lines_of t ls -> Forall (fun l => c_string l /\ zlen l <= 1279) ls ->
     exists ns r, file_load_names (Some t) = Ok (ns, r)).
Proof.
  intros H. destruct (H [92;10] [[92]]) as (ns & r & E).
  - apply (lo_cons [92] [] []); [cbv; intuition discriminate|constructor].
  - constructor; [|constructor]. split; [repeat constructor; lia|vm_compute; discriminate].
  - vm_compute in E. discriminate.
Qed.

(** C57 fails for a line starting with NUL: line[-1] is read. *)
Theorem C57_nul_refuted :
  ~ (forall t ls, lines_of t ls -> Forall (fun l => bytes_ok l /\ zlen l <= 1279 /\ dangling l = false) ls ->
     exists ns r, file_load_names (Some t) = Ok (ns, r)).
Proof.
  intros H. destruct (H [0;10] [[0]]) as (ns & r & E).
  - apply (lo_cons [0] [] []); [cbv; intuition discriminate|constructor].
  - constructor; [|constructor]. split; [repeat constructor; lia|split; [vm_compute; discriminate|reflexivity]].
  - vm_compute in E. discriminate.
Qed.

(** C57 needs the bound on lines: the 1280th octet of a comment starts a new line. *)
Theorem C57_long_comment_refuted :
  ~ (forall t ls, lines_of t ls -> Forall (fun l => c_string l /\ dangling l = false) ls ->
     exists ns r, file_load_names (Some t) = Ok (ns, r) /\ loads ls ns r).
Proof.
  intros H. destruct (H (repeat 35 1279 ++ [97] ++ 10 :: []) [repeat 35 1279 ++ [97]]) as (ns & r & E & L).
  - rewrite app_assoc. apply lo_cons; [|constructor].
    intros X. apply in_app_or in X as [X|[X|[]]]; [|discriminate]. apply repeat_spec in X. discriminate.
  - constructor; [|constructor]. split; [|vm_compute; reflexivity].
    apply Forall_app. split; [|constructor; [lia|constructor]]. apply Forall_forall. intros x X. apply repeat_spec in X. lia.
  - assert (E2 : file_load_names (Some (repeat 35 1279 ++ [97] ++ 10 :: [])) = Ok ([([1; 97; 0], 3)], res_success)) by (vm_compute; reflexivity).
    rewrite E2 in E. injection E as <- <-.
    inversion L as [| |? ? ? ? ? S|]; subst. { match goal with X : loads [] _ _ |- _ => inversion X end. }
    apply S. right. right. eexists. change (repeat 35 1279) with (35 :: repeat 35 1278). reflexivity.
Qed.

(** Non-vacuity: "# c\n\nwww.Example\n b\nx..y\nz\n" delivers www.example and then reports a parse error. *)
Example C57_ex : let t := [35;32;99;10;10;119;119;119;46;69;120;10;32;98;10;120;46;46;121;10;122;10] in
  file_load_names (Some t) = Ok ([([3;119;119;119;2;101;120;0], 8)], res_parse_error) /\
  lines_of t [[35;32;99]; []; [119;119;119;46;69;120]; [32;98]; [120;46;46;121]; [122]].
Proof.
  split; [vm_compute; reflexivity|].
  apply (lo_cons [35;32;99]); [cbv; intuition discriminate|].
  apply (lo_cons []); [cbv; intuition discriminate|].
  apply (lo_cons [119;119;119;46;69;120]); [cbv; intuition discriminate|].
  apply (lo_cons [32;98]); [cbv; intuition discriminate|].
  apply (lo_cons [120;46;46;121]); [cbv; intuition discriminate|].
  apply (lo_cons [122]); [cbv; intuition discriminate|]. constructor.
Qed.

Print Assumptions C57_lines_partial.
Print Assumptions C57_names.
Print Assumptions C57_open.
Print Assumptions C57_backslash_refuted.
Print Assumptions C57_nul_refuted.
Print Assumptions C57_long_comment_refuted.
