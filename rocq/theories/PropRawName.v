(** PropRawName.v: C107, C108: the name functions on arbitrary octets. Spec: SpecRawName.v. *)
From Verif Require Import Base Lib SpecName SpecRawName ModelName ProofUnpack ProofCopy ProofNameOps ProofNameStr ProofRawName.

(** ** C107: the text and the reversal of any octets *)
Theorem C107_shapes : forall src, bytes_ok src -> (exists ls r, ended src ls r) \/ (exists ls, open src ls) \/ (exists ls c r, cut src ls c r).
Proof. intros src B. apply (shape_any (length src)); auto. Qed.
Print Assumptions C107_shapes.
Theorem C107_shapes_unique : forall src,
  (forall ls r ls' r', ended src ls r -> ended src ls' r' -> ls = ls' /\ r = r') /\ (forall ls ls', open src ls -> open src ls' -> ls = ls') /\
  (forall ls c r ls' c' r', cut src ls c r -> cut src ls' c' r' -> ls = ls' /\ c = c' /\ r = r') /\
  (forall ls r ls', ended src ls r -> ~ open src ls') /\ (forall ls r ls' c' r', ended src ls r -> ~ cut src ls' c' r') /\ (forall ls ls' c' r', open src ls -> ~ cut src ls' c' r').
Proof.
  intros src.
  assert (SO : forall ls, open src ls -> raw_labels ls /\ src = prewire ls ++ [] /\ stop []) by (intros ls [V E]; rewrite app_nil_r; repeat split; auto).
  assert (SC : forall ls c r, cut src ls c r -> raw_labels ls /\ src = prewire ls ++ c :: r /\ stop (c :: r) /\ c <> 0) by (intros ls c r (V & C & R & E); repeat split; auto; [right; auto|lia]).
  repeat match goal with |- _ /\ _ => split end.
  - intros ls r ls' r' H H'. apply ended_stop in H as (V & E & S). apply ended_stop in H' as (V' & E' & S'). destruct (shape_fun ls ls' (0 :: r) (0 :: r')) as [X Y]; auto; [congruence|]. split; congruence.
  - intros ls ls' H H'. apply SO in H as (V & E & S). apply SO in H' as (V' & E' & S'). destruct (shape_fun ls ls' [] []) as [X Y]; auto; congruence.
  - intros ls c r ls' c' r' H H'. apply SC in H as (V & E & S & _). apply SC in H' as (V' & E' & S' & _). destruct (shape_fun ls ls' (c :: r) (c' :: r')) as [X Y]; auto; [congruence|]. repeat split; congruence.
  - intros ls r ls' H H'. apply ended_stop in H as (V & E & S). apply SO in H' as (V' & E' & S'). destruct (shape_fun ls ls' (0 :: r) []) as [X Y]; auto; congruence.
  - intros ls r ls' c' r' H H'. apply ended_stop in H as (V & E & S). apply SC in H' as (V' & E' & S' & N). destruct (shape_fun ls ls' (0 :: r) (c' :: r')) as [X Y]; auto; congruence.
  - intros ls ls' c' r' H H'. apply SO in H as (V & E & S). apply SC in H' as (V' & E' & S' & _). destruct (shape_fun ls ls' [] (c' :: r')) as [X Y]; auto; congruence.
Qed.
Print Assumptions C107_shapes_unique.

(** Ended octets: the text of their labels, whatever the labels' lengths, and the number of octets they take. *)
Theorem C107_text_ended : forall src ls r after, zlen src <= 255 -> ended src ls r -> domain_to_str (src ++ after) (zlen src) = Ok (pres_name ls, zlen (wire ls)).
Proof. intros src ls r after L E. eapply domain_ended; eauto. destruct E as [_ ->]. rewrite zlen_app in *. pose proof (zlen_nonneg _ r). lia. Qed.
Print Assumptions C107_text_ended.
(** Other octets: one octet behind them is read; the value returned exceeds the octets given. *)
Theorem C107_text_open : forall src ls b after, zlen src <= 255 -> open src ls -> domain_to_str (src ++ b :: after) (zlen src) = Ok (pres_name ls, zlen src + 1).
Proof. intros. eapply domain_open; eauto. Qed.
Print Assumptions C107_text_open.
Theorem C107_text_cut : forall src ls c r b after, zlen src <= 255 -> cut src ls c r -> domain_to_str (src ++ b :: after) (zlen src) = Ok (pres_name (ls ++ [r]), zlen (prewire ls) + c + 2).
Proof. intros. eapply domain_cutted; eauto. Qed.
Print Assumptions C107_text_cut.
(** Without such an octet: reading outside, exactly for octets that are not ended. *)
Theorem C107_text_reads : forall src, bytes_ok src -> zlen src <= 255 ->
  (domain_to_str src (zlen src) = UB OobRead <-> ~ exists ls r, ended src ls r) /\ ((exists s n, domain_to_str src (zlen src) = Ok (s, n)) <-> exists ls r, ended src ls r).
Proof.
  intros src B L. destruct (C107_shapes_unique src) as (_ & _ & _ & U1 & U2 & _). destruct (C107_shapes src B) as [(ls & r & E)|[(ls & O)|(ls & c & r & C)]].
  - pose proof (C107_text_ended src ls r [] L E) as T. rewrite app_nil_r in T. rewrite T. split; split; try discriminate; eauto. intros N. exfalso. apply N. eauto.
  - rewrite (domain_open_end _ _ O L). split; split; auto; try discriminate.
    + intros _ (ls' & r' & E). eapply U1; eauto.
    + intros (s & n & X). discriminate.
    + intros (ls' & r' & E). exfalso. eapply U1; eauto.
  - rewrite (domain_cut_end _ _ _ _ C L). split; split; auto; try discriminate.
    + intros _ (ls' & r' & E). eapply U2; eauto.
    + intros (s & n & X). discriminate.
    + intros (ls' & r' & E). exfalso. eapply U2; eauto.
Qed.
Print Assumptions C107_text_reads.

(** Reversal into a buffer of as many octets as the source is said to have. Octets behind the name leave zero octets in
    front of the reversed name; a label running over the end is refused; labels up to the very end (no zero octet) make it
    write in front of the buffer. *)
Theorem C107_reverse_ended : forall src ls r after, ended src ls r -> reverse_name (src ++ after) (zlen src) = Ok (repeat 0 (length r) ++ wire (rev ls)).
Proof.
  intros src ls r after E. rewrite (reverse_ended src ls r after); auto; destruct E as [_ ->]; rewrite zlen_app; pose proof (zlen_nonneg _ r); [|lia].
  f_equal. f_equal. f_equal. unfold zlen. lia.
Qed.
Print Assumptions C107_reverse_ended.
Theorem C107_reverse_cut : forall src ls c r after, cut src ls c r -> reverse_name (src ++ after) (zlen src) = Err res_out_of_bounds.
Proof. intros. eapply reverse_cut; eauto. Qed.
Print Assumptions C107_reverse_cut.
Theorem C107_reverse_open : forall src ls after, open src ls -> src <> [] -> reverse_name (src ++ after) (zlen src) = UB OobWrite.
Proof. intros src ls after O N. eapply reverse_open; eauto. intros ->. destruct O as [_ ->]. apply N. reflexivity. Qed.
Print Assumptions C107_reverse_open.

(** A label of 70 octets, then a zero octet and one more; two labels without a zero octet; a label cut short. *)
Lemma raw_bool : forall ls, forallb (fun l => (1 <=? zlen l) && (zlen l <=? 255) && forallb (fun b => (0 <=? b) && (b <? 256)) l) ls = true -> raw_labels ls.
Proof.
  intros ls H. apply Forall_forall. intros l I. rewrite forallb_forall in H. specialize (H l I). apply andb_prop in H as [H1 H2]. split; [lia|]. apply Forall_forall. intros b J. rewrite forallb_forall in H2. specialize (H2 b J). unfold is_byte. lia.
Qed.
Example C107_ex :
  ended (70 :: repeat 97 70 ++ [0; 9]) [repeat 97 70] [9] /\ open [1; 97; 1; 98] [[97]; [98]] /\ cut [1; 97; 5; 98] [[97]] 5 [98] /\
  domain_to_str (70 :: repeat 97 70 ++ [0; 9]) 73 = Ok (repeat 97 70 ++ [46], 72) /\
  domain_to_str ([1; 97; 1; 98] ++ [7]) 4 = Ok ([97; 46; 98; 46], 5) /\ domain_to_str ([1; 97; 5; 98] ++ [7]) 4 = Ok ([97; 46; 98; 46], 9) /\
  reverse_name [1; 97; 1; 98; 0; 9; 9] 7 = Ok [0; 0; 1; 98; 1; 97; 0] /\ reverse_name [1; 97; 5; 98] 4 = Err res_out_of_bounds /\ reverse_name [1; 97; 1; 98] 4 = UB OobWrite.
Proof.
  split; [split; [apply raw_bool; vm_compute; reflexivity|vm_compute; reflexivity]|].
  split; [split; [apply raw_bool; vm_compute; reflexivity|reflexivity]|].
  split; [split; [apply raw_bool; vm_compute; reflexivity|split; [lia|split; [cbn; lia|reflexivity]]]|].
  repeat match goal with |- _ /\ _ => split end; vm_compute; reflexivity.
Qed.

(** ** C108: counting and comparing the labels of any octets *)
Lemma count_labelled : forall src after ls, labelled src after ls -> zlen (prewire ls) <= zlen src /\ count_labels (src ++ after) (zlen src) = Ok (zlen ls) /\ exists r, src ++ after = wire ls ++ r.
Proof.
  intros src after ls (V & [(r & ->)|(-> & r & ->)]).
  - rewrite zlen_app, zlen_wire. pose proof (zlen_nonneg _ r). split; [lia|]. rewrite <- app_assoc. split; [|eauto]. apply count_labels_wire; auto; lia.
  - split; [lia|]. replace (prewire ls ++ 0 :: r) with (wire ls ++ r) by (unfold wire; rewrite <- app_assoc; auto). split; [|eauto]. apply count_labels_wire; auto; lia.
Qed.
Lemma count_bad : forall src after, bad_length src after -> count_labels (src ++ after) (zlen src) = Err res_invalid_length_octet.
Proof.
  intros src after (ls & c & r & V & C & [-> |(-> & ->)]).
  - rewrite <- app_assoc. cbn [app]. apply count_labels_reserved; auto. rewrite zlen_app, zlen_cons. pose proof (zlen_nonneg _ r). lia.
  - apply count_labels_reserved; auto. lia.
Qed.
Lemma count_over : forall src after, over_end src after -> count_labels (src ++ after) (zlen src) = Err res_name_overflow.
Proof.
  intros src after (ls & c & r & V & C & [(-> & R)|(-> & ->)]).
  - rewrite <- app_assoc. cbn [app]. rewrite zlen_app, zlen_cons. pose proof (zlen_nonneg _ r). apply count_labels_overflow; auto; lia.
  - apply count_labels_overflow; auto; lia.
Qed.
Lemma count_unended : forall src after, unended src after -> count_labels (src ++ after) (zlen src) = UB OobRead.
Proof. intros src after (ls & V & -> & ->). rewrite app_nil_r. apply count_open_end. auto. Qed.
Lemma valid_upto : forall ls, raw_labels ls -> valid_labels ls \/ exists a l b, ls = a ++ l :: b /\ valid_labels a /\ 64 <= zlen l.
Proof.
  induction ls as [|l ls IH]; intros R; [left; constructor|]. apply raw_cons in R as [[R1 R2] R]. destruct (Z_le_dec (zlen l) 63) as [L|L].
  - destruct (IH R) as [V|(a & x & b & -> & V & X)]; [left; apply valid_labels_cons; split; [split; [lia|auto]|auto]|]. right. exists (l :: a), x, b. split; [reflexivity|]. split; [apply valid_labels_cons; split; [split; [lia|auto]|auto]|auto].
  - right. exists [], l, ls. split; [reflexivity|]. split; [constructor|lia].
Qed.
(** Every octet string, with whatever is behind it, is in one of the four cases. *)
Theorem C108_cases : forall src after, bytes_ok src -> bytes_ok after -> (exists ls, labelled src after ls) \/ bad_length src after \/ over_end src after \/ unended src after.
Proof.
  intros src after B A.
  assert (BAD : forall a l b t, valid_labels a -> 64 <= zlen l -> src = prewire (a ++ l :: b) ++ t -> bad_length src after).
  { intros a l b t V L E. exists a, (zlen l), (l ++ prewire b ++ t). split; [auto|]. split; [auto|]. left. rewrite E, prewire_app, prewire_cons. rewrite <- app_assoc. cbn [app]. rewrite <- app_assoc. reflexivity. }
  destruct (C107_shapes src B) as [(ls & r & V & E)|[(ls & V & E)|(ls & c & r & V & C & R & E)]]; destruct (valid_upto ls V) as [W|(a & l & b & -> & W & L)].
  - left. exists ls. split; [auto|left; eauto].
  - right. left. eapply BAD; eauto. rewrite E. unfold wire. rewrite <- app_assoc. reflexivity.
  - destruct after as [|c r]; [right; right; right; exists ls; auto|]. apply bytes_ok_cons in A as [C _]. unfold is_byte in C. destruct (Z.eq_dec c 0) as [-> |N]; [left; exists ls; split; [auto|right; eauto]|].
    destruct (Z_le_dec c 63); [right; right; left|right; left]; exists ls, c, r; split; auto; split; try lia; right; auto.
  - right. left. apply (BAD a l b []); auto. rewrite app_nil_r. auto.
  - destruct (Z_le_dec c 63); [right; right; left|right; left]; exists ls, c, r; split; auto; split; try lia; left; auto.
  - right. left. apply (BAD a l b (c :: r)); auto.
Qed.
Print Assumptions C108_cases.
Theorem C108_count : forall src after, bytes_ok src -> bytes_ok after ->
  (forall n, count_labels (src ++ after) (zlen src) = Ok n <-> exists ls, labelled src after ls /\ n = zlen ls) /\
  (forall e, count_labels (src ++ after) (zlen src) = Err e <-> (bad_length src after /\ e = res_invalid_length_octet) \/ (over_end src after /\ e = res_name_overflow)) /\
  (forall u, count_labels (src ++ after) (zlen src) = UB u <-> unended src after /\ u = OobRead).
Proof.
  intros src after B A.
  assert (F1 : forall n, (exists ls, labelled src after ls /\ n = zlen ls) -> count_labels (src ++ after) (zlen src) = Ok n) by (intros n (ls & L & ->); apply count_labelled; auto).
  assert (F2 : forall e, (bad_length src after /\ e = res_invalid_length_octet) \/ (over_end src after /\ e = res_name_overflow) -> count_labels (src ++ after) (zlen src) = Err e) by (intros e [(H & ->)|(H & ->)]; [apply count_bad|apply count_over]; auto).
  assert (F3 : forall u, unended src after /\ u = OobRead -> count_labels (src ++ after) (zlen src) = UB u) by (intros u (H & ->); apply count_unended; auto).
  split; [|split]; intros x; split; auto; intros E; destruct (C108_cases src after B A) as [(ls & H)|[H|[H|H]]].
  - exists ls. split; auto. apply count_labelled in H as (_ & H & _). congruence.
  - rewrite (count_bad _ _ H) in E. discriminate.
  - rewrite (count_over _ _ H) in E. discriminate.
  - rewrite (count_unended _ _ H) in E. discriminate.
  - apply count_labelled in H as (_ & H & _). congruence.
  - rewrite (count_bad _ _ H) in E. left. split; congruence.
  - rewrite (count_over _ _ H) in E. right. split; congruence.
  - rewrite (count_unended _ _ H) in E. discriminate.
  - apply count_labelled in H as (_ & H & _). congruence.
  - rewrite (count_bad _ _ H) in E. discriminate.
  - rewrite (count_over _ _ H) in E. discriminate.
  - rewrite (count_unended _ _ H) in E. split; congruence.
Qed.
Print Assumptions C108_count.

Definition refused (src after : bytes) : Prop := bad_length src after \/ over_end src after.
Theorem C108_subdomain : forall s0 a0 s1 a1, bytes_ok s0 -> bytes_ok a0 -> bytes_ok s1 -> bytes_ok a1 -> zlen s0 <= 255 -> zlen s1 <= 255 ->
  let o := is_subdomain (s0 ++ a0) (zlen s0) (s1 ++ a1) (zlen s1) in
  (forall b, o = Ok b <-> exists n0 n1, labelled s0 a0 n0 /\ labelled s1 a1 n1 /\ (b = true <-> proper_suffix n1 n0)) /\
  (forall e, o = Err e <-> e = res_parse_error /\ (refused s0 a0 \/ ((exists n0, labelled s0 a0 n0) /\ refused s1 a1))) /\
  (forall u, o = UB u <-> u = OobRead /\ (unended s0 a0 \/ ((exists n0, labelled s0 a0 n0) /\ unended s1 a1))).
Proof.
  intros s0 a0 s1 a1 B0 A0 B1 A1 L0 L1 o.
  assert (REF : forall s a, refused s a -> exists e, count_labels (s ++ a) (zlen s) = Err e) by (intros s a [H|H]; [rewrite (count_bad _ _ H)|rewrite (count_over _ _ H)]; eauto).
  assert (G1 : forall n0 n1, labelled s0 a0 n0 -> labelled s1 a1 n1 -> exists b, o = Ok b /\ (b = true <-> proper_suffix n1 n0)).
  { intros n0 n1 H0 H1. destruct (count_labelled _ _ _ H0) as (P0 & _ & r0 & E0). destruct (count_labelled _ _ _ H1) as (P1 & _ & r1 & E1). unfold o. rewrite E0, E1. apply is_subdomain_len; [apply H0|apply H1|lia|lia]. }
  assert (G2 : refused s0 a0 \/ ((exists n0, labelled s0 a0 n0) /\ refused s1 a1) -> o = Err res_parse_error).
  { intros [H|((n0 & H0) & H)]; unfold o, is_subdomain.
    - destruct (REF _ _ H) as (e & ->). reflexivity.
    - destruct (count_labelled _ _ _ H0) as (_ & -> & _). destruct (REF _ _ H) as (e & ->). reflexivity. }
  assert (G3 : unended s0 a0 \/ ((exists n0, labelled s0 a0 n0) /\ unended s1 a1) -> o = UB OobRead).
  { intros [H|((n0 & H0) & H)]; unfold o, is_subdomain.
    - rewrite (count_unended _ _ H). reflexivity.
    - destruct (count_labelled _ _ _ H0) as (_ & -> & _). rewrite (count_unended _ _ H). reflexivity. }
  assert (G : (exists n0 n1, labelled s0 a0 n0 /\ labelled s1 a1 n1) \/ (refused s0 a0 \/ ((exists n0, labelled s0 a0 n0) /\ refused s1 a1)) \/ (unended s0 a0 \/ ((exists n0, labelled s0 a0 n0) /\ unended s1 a1))).
  { unfold refused. destruct (C108_cases s0 a0 B0 A0) as [(n0 & H0)|[H0|[H0|H0]]]; auto. destruct (C108_cases s1 a1 B1 A1) as [(n1 & H1)|[H1|[H1|H1]]]; eauto 10. }
  split; [|split].
  - intros b. split.
    + intros E. destruct G as [(n0 & n1 & H0 & H1)|[H|H]]; [|rewrite (G2 H) in E; discriminate|rewrite (G3 H) in E; discriminate].
      destruct (G1 n0 n1 H0 H1) as (b' & E' & X). exists n0, n1. assert (b = b') by congruence. subst. auto.
    + intros (n0 & n1 & H0 & H1 & X). destruct (G1 n0 n1 H0 H1) as (b' & E' & X'). rewrite E'. f_equal. destruct b, b'; auto; [apply X', X; auto|symmetry; apply X, X'; auto].
  - intros e. split.
    + intros E. destruct G as [(n0 & n1 & H0 & H1)|[H|H]]; [destruct (G1 n0 n1 H0 H1) as (b' & E' & _); congruence| |rewrite (G3 H) in E; discriminate]. rewrite (G2 H) in E. split; [congruence|auto].
    + intros (-> & H). auto.
  - intros u. split.
    + intros E. destruct G as [(n0 & n1 & H0 & H1)|[H|H]]; [destruct (G1 n0 n1 H0 H1) as (b' & E' & _); congruence|rewrite (G2 H) in E; discriminate|]. rewrite (G3 H) in E. split; [congruence|auto].
    + intros (-> & H). auto.
Qed.
Print Assumptions C108_subdomain.
(** Octets behind the names do not matter; a name whose last label has no zero octet behind it inside the given length. *)
Example C108_ex : 
  labelled [1; 97; 1; 98; 0; 9] [] [[97]; [98]] /\ labelled [1; 98] [0] [[98]] /\ bad_length [1; 97; 64; 98] [] /\ over_end [1; 97; 5; 98] [] /\ unended [1; 97] [] /\
  is_subdomain [1; 97; 1; 98; 0; 9] 6 ([1; 98] ++ [0]) 2 = Ok true /\ is_subdomain [1; 97; 64; 98] 4 [0] 1 = Err res_parse_error /\ is_subdomain [0] 1 [1; 97] 2 = UB OobRead.
Proof.
  assert (V : forall ls, forallb (fun l => (1 <=? zlen l) && (zlen l <=? 63) && forallb (fun b => (0 <=? b) && (b <? 256)) l) ls = true -> valid_labels ls).
  { intros ls H. apply Forall_forall. intros l I. rewrite forallb_forall in H. specialize (H l I). apply andb_prop in H as [H1 H2]. split; [lia|]. apply Forall_forall. intros b J. rewrite forallb_forall in H2. specialize (H2 b J). unfold is_byte. lia. }
  split; [split; [apply V; reflexivity|left; exists [9]; reflexivity]|]. split; [split; [apply V; reflexivity|right; split; [reflexivity|exists []; reflexivity]]|].
  split; [exists [[97]], 64, [98]; split; [apply V; reflexivity|split; [lia|left; reflexivity]]|]. split; [exists [[97]], 5, [98]; split; [apply V; reflexivity|split; [lia|left; split; [reflexivity|cbn; lia]]]|].
  split; [exists [[97]]; split; [apply V; reflexivity|split; reflexivity]|]. repeat split; vm_compute; reflexivity.
Qed.
