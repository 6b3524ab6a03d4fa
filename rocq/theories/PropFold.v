(** PropFold.v: C110: the exact effect of wdns_downcase_rdata and wdns_downcase_rrset on any octets. Spec: SpecFold.v. *)
From Verif Require Import Base Lib SpecName SpecMessage SpecRRset SpecFold ModelName ModelDescr ModelParse ModelRRset.
From Verif Require Import ProofNameOps ProofRdata ProofDowncase ProofFold PropRRset.

Definition result_code (ok : bool) : res := if ok then res_success else res_parse_error.
Lemma run : forall t c m ok m' x, In t rfc4034_types -> bytes_ok m -> folds (format_of t c) m ok m' -> downcase_rdata (m ++ x) (zlen m) t c = Ok (result_code ok, m' ++ x).
Proof.
  intros t c m ok m' x I B F. rewrite downcase_fields by (auto; apply zlen_nonneg). rewrite format_of_fields in F. rewrite (folds_run _ _ _ _ F); auto; [apply fold_shapes; auto|apply fields_short; auto].
Qed.
Lemma stuck : forall t c m, In t rfc4034_types -> two_endless (format_of t c) m -> downcase_rdata m (zlen m) t c = UB OobRead.
Proof. intros t c m I T. rewrite downcase_fields by (auto; apply zlen_nonneg). apply (endless_run _ _ T); [apply format_of_fields|apply fold_shapes; auto]. Qed.
Lemma total : forall t c m, In t rfc4034_types -> bytes_ok m -> (exists ok m', folds (format_of t c) m ok m') \/ two_endless (format_of t c) m.
Proof. intros t c m I B. rewrite format_of_fields. apply folds_total; auto. apply fold_shapes; auto. Qed.

Theorem C110_exact : forall t c m r m', In t rfc4034_types -> bytes_ok m ->
  (downcase_rdata m (zlen m) t c = Ok (r, m') <-> exists ok, folds (format_of t c) m ok m' /\ r = result_code ok).
Proof.
  intros t c m r m' I B. split.
  - intros E. destruct (total t c m I B) as [(ok & m1 & F)|T]; [|rewrite stuck in E by auto; discriminate]. pose proof (run t c m ok m1 [] I B F) as R. rewrite !app_nil_r in R. exists ok. assert (m1 = m') by congruence. subst. split; [auto|congruence].
  - intros (ok & F & ->). pose proof (run t c m ok m' [] I B F) as R. rewrite !app_nil_r in R. exact R.
Qed.
Print Assumptions C110_exact.
(** Reading outside the rdata, exactly for a name without an end in front of another name. *)
Theorem C110_reads : forall t c m u, In t rfc4034_types -> bytes_ok m -> (downcase_rdata m (zlen m) t c = UB u <-> two_endless (format_of t c) m /\ u = OobRead).
Proof.
  intros t c m u I B. split.
  - intros E. destruct (total t c m I B) as [(ok & m1 & F)|T]; [pose proof (run t c m ok m1 [] I B F) as R; rewrite app_nil_r in R; congruence|]. split; [auto|]. rewrite stuck in E by auto. congruence.
  - intros (T & ->). apply stuck; auto.
Qed.
Print Assumptions C110_reads.
(** Otherwise the memory behind the rdata is neither read nor changed. *)
Theorem C110_behind : forall t c m ok m' x, In t rfc4034_types -> bytes_ok m -> folds (format_of t c) m ok m' -> downcase_rdata (m ++ x) (zlen m) t c = Ok (result_code ok, m' ++ x).
Proof. exact run. Qed.
Print Assumptions C110_behind.
Theorem C110_one_result : forall t c m ok m' ok' m'', In t rfc4034_types -> bytes_ok m -> folds (format_of t c) m ok m' -> folds (format_of t c) m ok' m'' -> ok = ok' /\ m' = m''.
Proof.
  intros t c m ok m' ok' m'' I B F F'. apply (run t c m ok m' [] I B) in F. apply (run t c m ok' m'' [] I B) in F'. rewrite !app_nil_r in *.
  rewrite F in F'. split; [destruct ok, ok'; auto; discriminate|congruence].
Qed.
Print Assumptions C110_one_result.

(** RRsets: any owner name, any rdatas. *)
Theorem C110_rrset : forall s r s', In (rs_type s) rfc4034_types -> Forall bytes_ok (rs_rdatas s) -> bytes_ok (rs_name s) ->
  (downcase_rrset s = Ok (r, s') <-> exists ok rds, all_fold (format_of (rs_type s) (rs_class s)) (rs_rdatas s) ok rds /\ r = result_code ok /\
    s' = {| rs_name := lower_label (rs_name s); rs_type := rs_type s; rs_class := rs_class s; rs_ttl := rs_ttl s; rs_rdatas := rds |}).
Proof.
  intros s r s' I B BN. unfold downcase_rrset. pose proof (downcase_name_ok (rs_name s) []) as DN. rewrite !app_nil_r in DN. rewrite DN, map_dc_lower by auto. cbn [bind].
  set (t := rs_type s) in *. set (c := rs_class s) in *.
  assert (G : forall rds r' rds', Forall bytes_ok rds -> (downcase_rdatas rds t c = Ok (r', rds') <-> exists ok, all_fold (format_of t c) rds ok rds' /\ r' = result_code ok)).
  { clear r. induction rds as [|d rds IH]; intros r' rds' BB; cbn [downcase_rdatas].
    - split; [intros E; exists true; assert (rds' = []) by congruence; subst; split; [constructor|cbn; congruence]|]. intros (ok & A & ->). inversion A; subst. reflexivity.
    - inversion BB as [|? ? BD BR]; subst. split.
      + intros E. apply bind_ok in E as ([r1 d1] & E1 & E). apply C110_exact in E1 as (ok & F & ->); auto. destruct ok; cbn [result_code] in E.
        * apply bind_ok in E as ([r2 ds2] & E2 & E). apply IH in E2 as (ok & A & ->); auto. assert (rds' = d1 :: ds2) by congruence. subst. exists ok. split; [constructor; auto|congruence].
        * assert (rds' = d1 :: rds) by congruence. subst. exists false. split; [apply af_bad; auto|cbn; congruence].
      + intros (ok & A & ->). inversion A as [|? d' ? ? ds' F A'|? d' ? F]; subst.
        * assert (E : downcase_rdata d (zlen d) t c = Ok (res_success, d')) by (apply C110_exact; auto; exists true; auto). rewrite E. cbn [bind]. assert (E2 : downcase_rdatas rds t c = Ok (result_code ok, ds')) by (apply IH; auto; exists ok; auto). rewrite E2. reflexivity.
        * assert (E : downcase_rdata d (zlen d) t c = Ok (res_parse_error, d')) by (apply C110_exact; auto; exists false; auto). rewrite E. reflexivity. }
  split.
  - intros E. apply bind_ok in E as ([r1 ds] & E1 & E). apply G in E1 as (ok & A & ->); auto. exists ok, ds. split; [auto|]. split; congruence.
  - intros (ok & rds & A & -> & ->). assert (E : downcase_rdatas (rs_rdatas s) t c = Ok (result_code ok, rds)) by (apply G; auto; exists ok; auto). rewrite E. reflexivity.
Qed.
Print Assumptions C110_rrset.

(** An SRV target without an end; a zero octet inside a label of MX; SOA with the second name without an end; A6 with
    prefix length 2 (two octets are skipped); SOA without any zero octet. *)
Example C110_ex :
  folds (format_of 33 1) [0; 1; 0; 2; 0; 3; 65; 66] false [0; 1; 0; 2; 0; 3; 97; 98] /\
  folds (format_of 15 1) [0; 1; 3; 65; 0; 66; 0] false [0; 1; 3; 97; 0; 66; 0] /\
  folds (format_of 6 1) [1; 65; 0; 66; 67] false [1; 97; 0; 98; 99] /\
  folds (format_of 38 1) [2; 65; 66; 67; 0] true [2; 65; 66; 99; 0] /\ two_endless (format_of 6 1) [65; 66] /\
  downcase_rdata [0; 1; 0; 2; 0; 3; 65; 66] 8 33 1 = Ok (res_parse_error, [0; 1; 0; 2; 0; 3; 97; 98]) /\
  downcase_rdata [2; 65; 66; 67; 0] 5 38 1 = Ok (res_success, [2; 65; 66; 99; 0]).
Proof.
  assert (B : forall l, forallb (fun b => (0 <=? b) && (b <? 256)) l = true -> bytes_ok l). { intros l H. apply Forall_forall. intros b J. rewrite forallb_forall in H. specialize (H b J). unfold is_byte. lia. }
  assert (K : forall t m m' r, In t rfc4034_types -> bytes_ok m -> downcase_rdata m (zlen m) t 1 = Ok (r, m') -> exists ok, folds (format_of t 1) m ok m' /\ r = result_code ok) by (intros t m m' r I BM E; apply C110_exact; auto).
  assert (KF : forall t m m', In t rfc4034_types -> bytes_ok m -> downcase_rdata m (zlen m) t 1 = Ok (res_parse_error, m') -> folds (format_of t 1) m false m'). { intros t m m' I BM E. destruct (K _ _ _ _ I BM E) as ([] & F & X); [discriminate|exact F]. }
  assert (KT : forall t m m', In t rfc4034_types -> bytes_ok m -> downcase_rdata m (zlen m) t 1 = Ok (res_success, m') -> folds (format_of t 1) m true m'). { intros t m m' I BM E. destruct (K _ _ _ _ I BM E) as ([] & F & X); [exact F|discriminate]. }
  split; [apply KF; [cbn; tauto|apply B; reflexivity|vm_compute; reflexivity]|]. split; [apply KF; [cbn; tauto|apply B; reflexivity|vm_compute; reflexivity]|].
  split; [apply KF; [cbn; tauto|apply B; reflexivity|vm_compute; reflexivity]|]. split; [apply KT; [cbn; tauto|apply B; reflexivity|vm_compute; reflexivity]|].
  split; [|split; vm_compute; reflexivity]. apply (te_here _ [65; 66]); [discriminate|]. intros [X|[X|[]]]; discriminate.
Qed.
