(** ProofWritten2.v: what wdns_str_to_rdata writes can be printed. *)
From Coq Require Strings.String.
From Verif Require Import Base Lib SpecName SpecMessage SpecEncode SpecWritten SpecText Libc ModelName ModelDescr ModelFromStr.
From Verif Require Import ProofUnpack ProofCopy ProofRdata ProofSafe ProofMsgText ProofFromSafe ProofWritten.

Lemma loose_inj : forall ls ls' a a', Forall (fun l : label => l <> []) ls -> Forall (fun l : label => l <> []) ls' -> wire ls ++ a = wire ls' ++ a' -> ls = ls' /\ a = a'.
Proof.
  assert (P : forall l : label, l <> [] -> 0 < zlen l) by (intros [|x l] N; [congruence|rewrite zlen_cons; pose proof (zlen_nonneg _ l); lia]).
  induction ls as [|l ls IH]; intros [|l' ls'] a a' V V' E.
  - split; auto. injection E as E. auto.
  - rewrite wire_cons in E. inversion V' as [|? ? H]; subst. apply P in H. injection E as E _. lia.
  - rewrite wire_cons in E. inversion V as [|? ? H]; subst. apply P in H. injection E as E _. lia.
  - rewrite !wire_cons in E. cbn [app] in E. rewrite <- !app_assoc in E. injection E as E1 E2.
    assert (l = l'). { rewrite <- (firstn_app_exact _ l (wire ls ++ a) _ eq_refl), E2. apply firstn_app_exact; auto. }
    subst l'. apply app_inv_head in E2. inversion V; inversion V'; subst.
    match goal with A : Forall _ ls, B : Forall _ ls' |- _ => destruct (IH _ _ _ A B E2) as [-> ->] end. auto.
Qed.
Lemma valid_loose : forall ls, valid_labels ls -> Forall (fun l : label => l <> []) ls.
Proof. intros ls V. eapply Forall_impl; [|exact V]. intros l [L _] ->. change (zlen []) with 0 in L. lia. Qed.
Lemma loose_ne : forall ls, loose_name ls -> Forall (fun l : label => l <> []) ls.
Proof. intros ls [V _]. eapply Forall_impl; [|exact V]. cbn. tauto. Qed.

Lemma written_bytes : forall fs vs, written_values fs vs -> bytes_ok (canon vs).
Proof.
  induction 1 as [|fs ls vs [LN L] _ IH|f fs l vs _ B _ _ _ IH|fs ps _ WP]; [constructor| | |].
  - apply bytes_ok_app. split; [|exact IH]. cbn [canon1].
    assert (P : forall ls, Forall (fun l => l <> [] /\ bytes_ok l) ls -> zlen (wire ls) <= 255 -> bytes_ok (wire ls)).
    { clear. induction 1 as [|l ls [N B] _ IH]; intros L; [repeat constructor; unfold is_byte; lia|]. rewrite wire_cons in *. rewrite zlen_cons, zlen_app in L. pose proof (zlen_nonneg _ l). pose proof (zlen_nonneg _ (wire ls)).
      apply bytes_ok_cons. split; [unfold is_byte; lia|]. apply bytes_ok_app. split; [auto|apply IH; lia]. }
    auto.
  - apply bytes_ok_app. split; auto.
  - change (canon [VOctets (concat ps)]) with (concat ps ++ []). rewrite app_nil_r. apply concat_written_bytes; auto.
Qed.
Lemma written_not_cut : forall ts vs, ends_ok ts = true -> written_values (map fmt_of ts) vs -> ~ ends_in_name (map fmt_of ts) (canon vs).
Proof.
  intros ts vs EO W (before & after & vs' & ls & F1 & F2 & F3 & F4 & F5 & F6). change (Forall2 holds before vs') in F2. revert vs ts EO W F1 F6. induction F2 as [|f v' before vs' H F2 IH]; intros vs ts EO W F1 F6.
  - destruct ls as [|l ls]; [congruence|]. cbn [canon map concat app] in F6. destruct vs as [|v vs]; [discriminate|]. rewrite F1 in W. cbn [app] in W.
    inversion W as [|? ns ? VN W'|f fs o vs'' FO|]; subst; [|destruct FO].
    assert (X : wire ns ++ canon vs ++ [0] = wire (l :: ls) ++ []). { unfold canon in F6. cbn [map concat canon1] in F6. rewrite app_assoc. change (concat (map canon1 vs)) with (canon vs) in F6. rewrite F6. rewrite app_nil_r. reflexivity. }
    apply loose_inj in X as [_ X]; [|apply loose_ne; auto|apply valid_loose; auto]. destruct (canon vs); discriminate.
  - destruct ts as [|t ts]; [discriminate|]. cbn [map app] in F1. injection F1 as FT F1. destruct (ends_tail _ _ EO) as [EO' TE].
    assert (T : to_end f = false). { rewrite <- FT. apply TE. intros ->. destruct before; discriminate. }
    destruct vs as [|v vs].
    { assert (NE : canon1 v' <> []). { destruct v' as [ns|o]; cbn [canon1]; [destruct ns; discriminate|apply H]. } unfold canon in F6. cbn [map concat] in F6. destruct (canon1 v'); [congruence|discriminate]. }
    cbn [map] in W. rewrite FT in W. unfold canon in F6. cbn [map concat] in F6. rewrite <- app_assoc in F6. clear FT.
    inversion W as [|? ns ? LN W'|? ? o ? FO BO NO TO W'|]; subst; [| |discriminate T].
    + destruct v' as [ns'|o']; [|destruct H as [[] _]]. destruct H as [_ [V' _]]. cbn [canon1] in F6. apply loose_inj in F6 as [_ F6]; [|apply loose_ne; auto|apply valid_loose; auto]. apply (IH vs ts); auto.
    + apply (front_value f) in F6; auto; [|split; auto]. apply (IH vs ts); auto.
Qed.

Theorem str_to_rdata_out : forall s t c l, SpecName.c_string s -> str_to_rdata s t c = Ok l ->
  exists vs, written_values (format_of t c) vs /\ l = canon vs /\ names_from s vs /\ ((In FParams (format_of t c) -> no_alpn s /\ zlen l < 65536) -> names_short vs -> wf_values (format_of t c) vs).
Proof.
  intros s t c l C E. rewrite format_of_fields. unfold str_to_rdata in E. unfold fields_for, descr_for. destruct (lookup_descr t) as [d|] eqn:LD.
  - destruct ((d_class d =? class_un) || (d_class d =? c)) eqn:CL; cbn [negb] in E.
    + apply (fields_out s) in E; auto; [pose proof (fields_for_ends t c) as FE; unfold fields_for, descr_for in FE; rewrite LD, CL in FE; exact FE|].
      intros s' K. injection K as <-. apply suffix_refl.
    + injection E as <-. exists []. repeat split; try constructor. intros ls [].
  - assert (B : bytes_ok l).
    { unfold str_to_generic_rdata in E. destruct (negb _); [discriminate|]. destruct (skipn 2 s) as [|x y]; [discriminate|]. destruct (negb (isspace x)); [discriminate|]. destruct (split_at isspace _) as [tk e]. destruct (negb _); [discriminate|].
      apply bind_ok in E as (n & _ & E). apply bind_ok in E as (o & O & E). destruct n as [n|]; [|discriminate]. destruct (negb _); [discriminate|]. assert (o = l) by congruence. subst. eapply generic_octets_bytes; eauto. }
    cbn [map fmt_of]. destruct (list_eq_dec Z.eq_dec l []) as [->|N]; [exists []; repeat split; try constructor; intros ls []|].
    exists [VOctets l]. split; [apply wr_octets; auto; [exact I|constructor]|]. split; [unfold canon; cbn [map concat canon1]; rewrite app_nil_r; auto|]. split; [intros ls [K|[]]; discriminate|].
    intros _ _. apply wv_octets; auto; [exact I|constructor].
Qed.
Lemma written_not_cut_of : forall t c vs, written_values (format_of t c) vs -> ~ ends_in_name (format_of t c) (canon vs).
Proof. intros t c vs W. rewrite format_of_fields in *. apply written_not_cut; auto. apply fields_for_ends. Qed.
