(** PropStrName.v: C89, C90: the exact behaviour of the two text-to-name functions on every C string. *)
From Verif Require Import Base Lib SpecName ModelName ProofStrName ProofNameMore SpecStrName ProofStrName2.

Lemma wchar_ext : forall g h, (forall c, g c = h c) -> forall t c, wchar g t c -> wchar h t c.
Proof. intros g h E t c [x|x|x y z]; [rewrite E|..]; constructor; auto. Qed.
Lemma wlabel_ext : forall g h, (forall c, g c = h c) -> forall t l, wlabel g t l -> wlabel h t l.
Proof. intros g h E t l H. induction H; constructor; auto. eapply wchar_ext; eauto. Qed.
Lemma wlabels_ext : forall g h, (forall c, g c = h c) -> forall t l, wlabels g t l -> wlabels h t l.
Proof. intros g h E t l H. induction H; constructor; auto. eapply wlabel_ext; eauto. Qed.
Lemma written_ext1 : forall g h, (forall c, g c = h c) -> forall s ls, written g s ls -> written h s ls.
Proof.
  intros g h E s ls [| |? ? W N|? ? ? ? W L N]; [apply wr_empty|apply wr_dot|apply wr_dotted; auto|apply wr_undotted; auto];
  solve [eapply wlabels_ext; eauto|eapply wlabel_ext; eauto].
Qed.
Lemma written_ext : forall g h, (forall c, g c = h c) -> forall s ls, written g s ls <-> written h s ls.
Proof. intros g h E s ls. split; apply written_ext1; auto. Qed.
Lemma begun_ext : forall g h, (forall c, g c = h c) -> forall u ls cur, begun g u ls cur -> begun h u ls cur.
Proof. intros g h E u ls cur (s & t & -> & A & B). exists s, t. repeat split; [eapply wlabels_ext|eapply wlabel_ext]; eauto. Qed.

(** ** C89: which texts are accepted, and as what. No string is excluded; [after] is whatever lies behind its NUL. *)
Theorem C89_case_preserving_exact : forall s after w n, c_string s ->
  (str_to_name_case s after = Ok (w, n) <->
   exists ls, written same s ls /\ zlen (wire ls) <= 255 /\ w = wire ls /\ n = zlen (wire ls)).
Proof. intros s after w n CS. exact (gen_ok_iff false s after CS w n). Qed.
Print Assumptions C89_case_preserving_exact.

Theorem C89_lowering_exact : forall s after w n, c_string s ->
  (str_to_name s after = Ok (w, n) <->
   exists ls, written small s ls /\ zlen (wire ls) <= 255 /\ w = wire ls /\ n = zlen (wire ls)).
Proof.
  intros s after w n CS. unfold str_to_name. rewrite (gen_ok_iff true s after CS w n).
  split; intros (ls & W & R); exists ls; split; auto; eapply written_ext; try exact W; intros; cbn [gfun]; rewrite dc_small; auto.
Qed.
Print Assumptions C89_lowering_exact.
(** "A\A.\066" : only the first capital is lowered. *)
Example C89_ex : str_to_name [65;92;65;46;92;48;54;54] [] = Ok ([2;97;65;1;66;0], 6) /\
  written small [65;92;65;46;92;48;54;54] [[97;65];[66]] /\ written same [65;92;65;46;92;48;54;54] [[65;65];[66]].
Proof.
  split; [reflexivity|].
  assert (D : forall x, In x [48;54] -> digit x) by (intros x [<-|[<-|[]]]; unfold digit; lia).
  assert (L : forall g, wlabel g [92;48;54;54] [66]) by
    (intros g; apply wlabel_one; apply (wc_ddd g 48 54 54); try (apply D; cbn; auto); lia).
  split.
  - apply (wr_undotted small [65;92;65;46] [[97;65]] [92;48;54;54] [66]); [|apply L|discriminate].
    apply (ws_cons small [65;92;65] [97;65] [] []); [|discriminate|constructor].
    apply (wl_cons small [65] 97 [92;65] [65]); [apply (wc_plain small 65); lia|]. apply wlabel_one. constructor. unfold digit; lia.
  - apply (wr_undotted same [65;92;65;46] [[65;65]] [92;48;54;54] [66]); [|apply L|discriminate].
    apply (ws_cons same [65;92;65] [65;65] [] []); [|discriminate|constructor].
    apply (wl_cons same [65] 65 [92;65] [65]); [apply (wc_plain same 65); lia|]. apply wlabel_one. constructor. unfold digit; lia.
Qed.

(** ** C90: why a text is rejected. Nothing readable lies behind the string: any read past its NUL is reported. *)
Theorem C90_rejections_exact : forall s, c_string s ->
  (str_to_name_case s [] = Err res_parse_error <-> syntax_failure same s) /\
  (str_to_name_case s [] = Err res_name_overflow <-> size_failure same s) /\
  (str_to_name_case s [] = UB OobRead <-> cut_escape same s) /\
  ((exists w n, str_to_name_case s [] = Ok (w, n)) \/ str_to_name_case s [] = Err res_parse_error \/
   str_to_name_case s [] = Err res_name_overflow \/ str_to_name_case s [] = UB OobRead).
Proof.
  intros s CS. split; [exact (gen_parse_iff false s CS)|]. split; [exact (gen_ovf_iff false s CS)|]. split; [exact (gen_cut_iff false s CS)|].
  unfold str_to_name_case. destruct (gen_total false s CS) as [(ls & _ & _ & K)|[[_ K]|[[_ K]|[_ K]]]]; [left; eauto|auto..].
Qed.
Print Assumptions C90_rejections_exact.

(** The lower-casing function is rejected, and over-reads, in exactly the same cases. *)
Theorem C90_lowering_rejections : forall s, c_string s ->
  (str_to_name s [] = Err res_parse_error <-> syntax_failure same s) /\
  (str_to_name s [] = Err res_name_overflow <-> size_failure same s) /\
  (str_to_name s [] = UB OobRead <-> cut_escape same s) /\
  ((exists w n, str_to_name s [] = Ok (w, n)) \/ str_to_name s [] = Err res_parse_error \/
   str_to_name s [] = Err res_name_overflow \/ str_to_name s [] = UB OobRead).
Proof.
  intros s CS. destruct (C90_rejections_exact s CS) as (A & B & C & D).
  pose proof (str_to_name_sim s []) as S.
  assert (SE : forall e, str_to_name s [] = Err e <-> str_to_name_case s [] = Err e) by
    (intros e; destruct (str_to_name_case s []) as [[w n]|e1|x|], (str_to_name s []) as [[w' n']|e'|x'|]; try contradiction;
     try subst; split; intros; congruence).
  assert (SU : str_to_name s [] = UB OobRead <-> str_to_name_case s [] = UB OobRead) by
    (destruct (str_to_name_case s []) as [[w n]|e1|x|], (str_to_name s []) as [[w' n']|e'|x'|]; try contradiction;
     try subst; split; intros; congruence).
  split; [rewrite SE; auto|]. split; [rewrite SE; auto|]. split; [rewrite SU; auto|].
  rewrite !SE, SU. destruct D as [(w & n & D)|D]; auto. left. rewrite D in S.
  destruct (str_to_name s []) as [[w' n']|e'|x'|]; try contradiction. eauto.
Qed.
Print Assumptions C90_lowering_rejections.

(** Whatever lies behind the string, a text with a lone backslash at its end is not accepted. *)
Theorem C90_cut_escape_never_accepted : forall s after w, c_string s -> cut_escape same s ->
  str_to_name_case s after <> Ok w /\ str_to_name s after <> Ok w.
Proof.
  intros s after w CS K.
  assert (X : str_to_name_case s after <> Ok w) by (apply (proj1 (gen_cut false s after CS K))).
  split; auto.
  assert (K2 : cut_escape (gfun true) s).
  { destruct (C90_lowering_rejections s CS) as (_ & _ & C & _). apply (gen_cut_iff true s CS). apply C; auto. }
  apply (proj1 (gen_cut true s after CS K2)).
Qed.
Print Assumptions C90_cut_escape_never_accepted.

(** "a\" runs over; ".a", "a..b", "\25" and "\256" are malformed; 128 letters with dots are too long, whatever follows;
    a malformed rest does not count once the room is used up. *)
Example C90_ex :
  str_to_name_case [97;92] [] = UB OobRead /\ cut_escape same [97;92] /\
  str_to_name_case [46;97] [] = Err res_parse_error /\ syntax_failure same [46;97] /\
  str_to_name_case [92;50;53] [] = Err res_parse_error /\ str_to_name_case [92;50;53;54] [] = Err res_parse_error /\
  str_to_name_case (repeat 97 254 ++ [46;46]) [] = Err res_name_overflow /\
  size_failure same (repeat 97 254 ++ [46;46]) /\
  str_to_name_case (repeat 97 253 ++ [46;46]) [] = Err res_name_overflow /\
  str_to_name_case (repeat 97 252 ++ [46;46]) [] = Err res_parse_error.
Proof.
  split; [reflexivity|]. split.
  { exists [97], [], [97]. split; [reflexivity|]. split; [|unfold room; cbn; lia]. exists [], [97]. repeat split; [constructor|].
    apply wlabel_one. apply (wc_plain same 97); lia. }
  split; [reflexivity|]. split.
  { split; [discriminate|]. exists [], [46;97], [], []. split; [reflexivity|]. split; [exists [], []; repeat split; constructor|].
    split; [unfold room; cbn; lia|]. left. split; eauto. }
  repeat (split; [reflexivity|]). split.
  { exists (repeat 97 254), [46;46], [], (repeat 97 254). split; [reflexivity|]. split.
    - exists [], (repeat 97 254). repeat split; [constructor|].
      assert (G : forall n, wlabel same (repeat 97 n) (repeat 97 n)).
      { induction n; [constructor|]. apply (wl_cons same [97] 97); auto. apply (wc_plain same 97); lia. }
      apply G.
    - split; [reflexivity|]. left. discriminate. }
  split; reflexivity.
Qed.
