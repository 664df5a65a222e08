(** * Props_Const: the physical constants (C104). *)
From Coq Require Import Reals Lra Lia Qreals.
From Verif Require Import Py Num Dim DimFacts Arr Units Spec UnitFacts Quant QuantFacts Hash SpecApi ConvFacts Examples
     Text Markup Lex LexFacts Registry RegFacts PrintFacts RoundTrip Props_Registry SpecPickle PickleFacts HistFacts
     Table Import TableFacts SpecSizes SpecConstants Props_Table Constants Kimport KFacts.

Open Scope list_scope.
Open Scope R_scope.
Opaque lib library constants.



Lemma krun_gen parse (st : rstate R) sh l l' : sim parse st sh -> forallb (kcheck parse sh) l' = true ->
  (forall e, In e l -> In e l') -> (forall u, In u (dkeys (objs st)) -> u_cls u <> CConstant) -> renv_ok (objs st) ->
  exists st2 X2, krun parse st l = (st2, Ok tt) /\
    objs st2 = objs st ++ X2 /\ ctx st2 = ctx st /\ dflt st2 = dflt st /\
    Forall2 (kmatch parse st sh) l X2 /\
    (Forall (fun e => 0 < Qc2R (k_value e)) l -> NoDup (map k_uid l) -> renv_ok (objs st2)).
Proof.
  intros HS HK Hl HN HE.
  assert (HK' : forallb (kcheck parse sh) l = true).
  { apply forallb_forall. intros e He. exact (proj1 (forallb_forall _ _) HK e (Hl e He)). }
  destruct (krun_ok _ _ sh l HS HK' st []) as (st2 & X2 & R1 & R2 & R3 & R4 & R5 & R6); [now rewrite app_nil_r|reflexivity|].
  exists st2, X2. split; [exact R1|]. split; [exact R2|]. split; [exact R3|]. split; [exact R4|].
  split; [exact R5|]. intros HP HN'. apply R6; auto. intros e He X. exact (HN _ X eq_refl).
Qed.
Lemma krun_lib fread l : (forall e, In e l -> In e constants) ->
  exists sh st2 X2, (sim (parse_arith fread) (lib fread) sh /\ check_known (parse_arith fread) sh = true) /\
    krun (parse_arith fread) (lib fread) l = (st2, Ok tt) /\
    objs st2 = objs (lib fread) ++ X2 /\ ctx st2 = ctx (lib fread) /\ dflt st2 = dflt (lib fread) /\
    Forall2 (kmatch (parse_arith fread) (lib fread) sh) l X2 /\
    (Forall (fun e => 0 < Qc2R (k_value e)) l -> NoDup (map k_uid l) -> renv_ok (objs st2)).
Proof.
  intros Hl. destruct (klib_sim fread) as (sh & HS & HK & HN & HD). exists sh.
  destruct (krun_gen (parse_arith fread) (lib fread) sh l constants HS HK Hl HN (lib_env fread)) as (st2 & X2 & H).
  exists st2, X2. split; [exact (conj HS (proj1 (proj2 HD)))|exact H].
Qed.
Lemma NoDup_app' {X} (l l' : list X) : NoDup l -> NoDup l' -> (forall x, In x l -> In x l' -> False) -> NoDup (l ++ l').
Proof.
  intros H1 H2 H. induction H1 as [|x l Hx H1 IH]; cbn [app]; auto. constructor.
  - intros Y. apply in_app_or in Y. destruct Y as [Y|Y]; [contradiction|]. apply (H x); [now left|exact Y].
  - apply IH. intros y Hy. apply H. now right.
Qed.
Lemma f2_keys parse st sh l X : Forall2 (kmatch parse st sh) l X -> dkeys X = map k_uid l.
Proof. induction 1 as [|e o l X H _ IH]; cbn; auto. destruct H as [H _]. unfold dkeys in IH. now rewrite H, IH. Qed.

(** C104: the import of the constants succeeds after that of the units; it creates exactly
    the constants of the table, no two with the same name, and registers no name: what a
    string means, and the default units, stay what they were. *)
Theorem C104_import : forall fread,
  snd (krun (parse_arith fread) (lib fread) constants) = Ok tt /\
  dkeys (objs (klib fread)) = dkeys (objs (lib fread)) ++ map k_uid constants /\ NoDup (dkeys (objs (klib fread))) /\
  extends (objs (lib fread)) (objs (klib fread)) /\
  (forall s, ctx_get (klib fread) s = ctx_get (lib fread) s) /\ dflt (klib fread) = dflt (lib fread).
Proof.
  intros fread. unfold klib. destruct (krun_lib fread constants (fun _ H => H)) as (sh & st2 & X & HS & -> & H1 & H2 & H3 & H4 & _).
  cbn [fst snd]. assert (HK : dkeys (objs st2) = dkeys (objs (lib fread)) ++ map k_uid constants).
  { rewrite H1, dkeys_app. f_equal. exact (f2_keys _ _ _ _ _ H4). }
  split; [reflexivity|]. split; [exact HK|]. split; [|split; [|split]].
  - rewrite HK. destruct (klib_sim fread) as (_ & _ & _ & HN & HD & _). apply NoDup_app'; [|exact HD|].
    + exact (NoDup_env _ _ (lib_env fread)).
    + intros u Hu Hk. apply in_map_iff in Hk. destruct Hk as (e & <- & _). exact (HN _ Hu eq_refl).
  - exists X. exact H1.
  - intros s. unfold ctx_get. rewrite H2. reflexivity.
  - exact H3.
Qed.

(** Conversions between the units of the library stay what they were. *)
Theorem C104_frame : forall fread (q : qty R) d,
  (forall u, In u (dkeys (qdim q)) -> In u (dkeys (objs (lib fread)))) ->
  (forall u, In u (dkeys d) -> In u (dkeys (objs (lib fread)))) ->
  rescale_to (objs (klib fread)) q d = rescale_to (objs (lib fread)) q d.
Proof.
  intros fread q d H1 H2. destruct (C104_import fread) as (_ & _ & _ & HX & _).
  exact (rescale_to_extend (objs (lib fread)) (objs (klib fread)) q d HX H1 H2).
Qed.

Lemma f2_in parse st sh l X : Forall2 (kmatch parse st sh) l X -> forall e, In e l ->
  exists o, In o X /\ kmatch parse st sh e o.
Proof.
  induction 1 as [|e o l X H _ IH]; intros e' He; [contradiction|]. destruct He as [<-|He].
  - exists o. split; [now left|exact H].
  - destruct (IH e' He) as (o' & Ho & Hk). exists o'. split; [now right|exact Hk].
Qed.
(** The constants that have been created. *)
Lemma klib_entries fread : exists sh, sim (parse_arith fread) (lib fread) sh /\ check_known (parse_arith fread) sh = true /\
  forall e, In e constants -> exists d, kdims (parse_arith fread) sh e = Some d /\ dims_ok d /\
  (forall u, In u (dkeys d) -> In u (dkeys (objs (lib fread)))) /\
  (exists r, ulookup (objs (klib fread)) (k_uid e) = Some r /\ ur_symbol r = k_sym e /\
     ur_ref r = Some (qty_ref (objs (lib fread)) (Qc2R (k_value e)) d)).
Proof.
  destruct (krun_lib fread constants (fun _ H => H)) as (sh & st2 & X & [HS HC] & Hk & H1 & H2 & H3 & H4 & _).
  exists sh. split; [exact HS|]. split; [exact HC|]. clear HC. intros e He.
  destruct (f2_in _ _ _ _ _ H4 e He) as ([u r] & Ho & Hm & Hs & _ & d & K1 & K2 & K3 & _ & K5). cbn [fst snd] in *. subst u.
  exists d. split; [exact K1|]. split; [exact K2|]. split; [exact K3|].
  exists r. split; [|split; [exact Hs|exact K5]].
  destruct (C104_import fread) as (_ & _ & HN & _). unfold klib in *. rewrite Hk in HN |- *. cbn [fst] in *.
  unfold ulookup. apply In_dget; [apply uid_eqb_eq|exact HN|]. rewrite H1. apply in_or_app. right. exact Ho.
Qed.
Lemma klib_fresh fread e : ~ In (k_uid e) (dkeys (objs (lib fread))).
Proof. destruct (klib_sim fread) as (_ & _ & _ & HN & _). intros Y. exact (HN _ Y eq_refl). Qed.

Lemma const_factor (E E' : uenv R) k r v d : renv_ok E -> extends E E' -> dims_ok d ->
  (forall u, In u (dkeys d) -> In u (dkeys E)) -> ulookup E' k = Some r -> ur_ref r = Some (qty_ref E v d) ->
  conv_factor E' [(k, PInt 1)] d = Ok v.
Proof.
  intros HE HX Hd Kd Hr Hf. unfold conv_factor.
  assert (E2 : qty_ref E' n1 d = qty_ref E n1 d).
  { unfold qty_ref. now rewrite (ref_pair_extend E E' d HX Kd). }
  assert (E1 : ref_pair E' [(k, PInt 1)] =
     (nmul n1 (npow (fst (qty_ref E v d)) (PInt 1)), dim_mul [] (dim_pow (snd (ref_pair E d)) (PInt 1)))).
  { unfold ref_pair at 1. cbn [fold_left ref_step]. unfold unit_ref. rewrite Hr, Hf. reflexivity. }
  unfold qty_ref at 1 3. rewrite E1, E2. cbn [fst snd]. unfold qty_ref. cbn [fst snd].
  pose proof (ref_pair_wf _ E HE d) as W. set (D := snd (ref_pair E d)) in *.
  replace (dim_eqb (dim_mul [] (dim_pow D (PInt 1))) D) with true.
  2:{ symmetry. apply dim_eqb_exp; auto.
      - apply wf_mul; [apply dims_ok_nil|now apply wf_pow].
      - intros u. rewrite exp_of_mul; [|constructor|apply (wf_pow D (PInt 1) W)]. rewrite exp_of_pow, exp_of_nil.
        assert (X : pval (PInt 1) = 1%Qc) by (apply Qc_is_canon; reflexivity). rewrite X. ring. }
  f_equal. pose proof (ref_pair_pos E d HE) as Hp. set (a := fst (ref_pair E d)) in *. clearbody a.
  change (npow (nmul a v) (PInt 1)) with (powerRZ (a * v) 1). rewrite powerRZ_1.
  cbn [nmul n1 ndiv NumR]. field. lra.
Qed.

Lemma ulookup_known {X} (d : list (uid * X)) k : In k (dkeys d) \/ ~ In k (dkeys d).
Proof.
  destruct (existsb (uid_eqb k) (dkeys d)) eqn:Y.
  - left. apply existsb_exists in Y. destruct Y as (x & Hx & E). apply uid_eqb_eq in E. now subst x.
  - right. intros Hk. assert (Z : existsb (uid_eqb k) (dkeys d) = true).
    { apply existsb_exists. exists k. split; [exact Hk|apply uid_eqb_refl]. } congruence.
Qed.
Lemma const_rescale (E E' : uenv R) k r v d (q : qty R) : renv_ok E -> extends E E' -> dims_ok d ->
  (forall u, In u (dkeys d) -> In u (dkeys E)) -> ~ In k (dkeys E) -> ulookup E' k = Some r -> ur_ref r = Some (qty_ref E v d) ->
  qdim q = [(k, PInt 1)] -> rescale_to E' q d = Ok (Qty (amap (fun x => v * x) (mag q)) d).
Proof.
  intros HE HX Hd Kd Hk Hr Hf Hq. unfold rescale_to. rewrite Hq.
  rewrite (const_factor E E' k r v d HE HX Hd Kd Hr Hf).
  replace (dim_eqb [(k, PInt 1)] d) with false; [reflexivity|].
  symmetry. destruct (dim_eqb [(k, PInt 1)] d) eqn:X; auto. exfalso. apply Hk, Kd.
  assert (W : wf_dims [(k, PInt 1)]).
  { apply wf_dimsb_true. reflexivity. }
  pose proof (proj1 (dim_eqb_exp _ _ W (proj1 Hd)) X k) as Y.
  destruct (ulookup_known d k) as [Z|Z]; [exact Z|]. exfalso.
  rewrite (exp_of_notin d k Z) in Y. unfold exp_of in Y. cbn in Y. rewrite uid_eqb_refl in Y. discriminate Y.
Qed.

(** C104: one of a constant is what the table says: a quantity in units of the constant
    becomes its value times the number when converted to the units in which the table
    gives the value -- for every constant, those of negative value included. *)
Theorem C104_value : forall fread e (q : qty R) l, In e constants -> k_label e = Some l -> qdim q = [(k_uid e, PInt 1)] ->
  exists d, denotes_units (reg_lookup (parse_arith fread) (klib fread)) (UStr l) d /\
    (forall u, In u (dkeys d) -> In u (dkeys (objs (lib fread)))) /\
    rescale (reg_lookup (parse_arith fread) (klib fread)) (objs (klib fread)) q (UStr l) =
    Ok (Qty (amap (fun x => Qc2R (k_value e) * x) (mag q)) d).
Proof.
  intros fread e q l He Hl Hq. destruct (klib_entries fread) as (sh & HS & _ & HE). destruct (HE e He) as (d & Hd & Dd & Kd & r & Hr & _ & Hf).
  destruct (C104_import fread) as (_ & _ & _ & HX & HC & _).
  exists d. assert (Hden : denotes_units (reg_lookup (parse_arith fread) (klib fread)) (UStr l) d).
  { assert (Hl' : reg_lookup (parse_arith fread) (klib fread) l = Ok (Qty (scalar 1) d)).
    { unfold kdims in Hd. rewrite Hl in Hd. destruct HX as [X HX].
      refine (klabel_ok (parse_arith fread) (lib fread) sh l d HS Hd (klib fread) X _ HX).
      intros s v Hs. rewrite HC. exact Hs. }
    exact (den_str _ l (Qty (scalar 1) d) Hl'). }
  split; [exact Hden|]. split; [exact Kd|].
  rewrite (rescale_denotes _ _ _ _ _ Hden).
  refine (const_rescale (objs (lib fread)) (objs (klib fread)) (k_uid e) r _ d q (lib_env fread) HX Dd Kd (klib_fresh fread e) Hr Hf Hq).
Qed.
(** ... and a constant without units is a number. *)
Theorem C104_pure_numbers : forall fread e (q : qty R), In e constants -> k_label e = None -> qdim q = [(k_uid e, PInt 1)] ->
  rescale_to (objs (klib fread)) q [] = Ok (Qty (amap (fun x => Qc2R (k_value e) * x) (mag q)) []).
Proof.
  intros fread e q He Hl Hq. destruct (klib_entries fread) as (sh & HS & _ & HE). destruct (HE e He) as (d & Hd & Dd & Kd & r & Hr & _ & Hf).
  destruct (C104_import fread) as (_ & _ & _ & HX & _).
  unfold kdims in Hd. rewrite Hl in Hd. injection Hd as <-.
  refine (const_rescale (objs (lib fread)) (objs (klib fread)) (k_uid e) r _ [] q (lib_env fread) HX Dd Kd (klib_fresh fread e) Hr Hf Hq).
Qed.
(** The constants listed in SpecConstants.v have the CODATA 2006 values given there. *)
Theorem C104_known : forall fread z (q : qty R), In z known_constants -> qdim q = [(UId CConstant (ks_name z), PInt 1)] ->
  In (UId CConstant (ks_name z)) (dkeys (objs (klib fread))) /\
  (forall u, In u (dkeys (ks_of z)) -> In u (dkeys (objs (lib fread)))) /\
  rescale_to (objs (klib fread)) q (ks_of z) = Ok (Qty (amap (fun x => Q2R (ks_value z) * x) (mag q)) (ks_of z)).
Proof.
  intros fread z q Hz Hq. destruct (klib_entries fread) as (sh & HS & HC & HE).
  unfold check_known in HC. pose proof (proj1 (forallb_forall _ _) HC z Hz) as H. cbv beta in H. clear HC.
  apply existsb_exists in H. destruct H as (e & He & H).
  destruct (String.eqb (k_name e) (ks_name z)) eqn:En; [|discriminate H]. apply String.eqb_eq in En.
  apply andb_prop in H. destruct H as [H1 H2].
  destruct (HE e He) as (d & Hd & Dd & Kd & r & Hr & _ & Hf). clear HE. rewrite Hd in H2. apply sdims_eqb_eq in H2. subst d.
  destruct (C104_import fread) as (_ & HK & _ & HX & _).
  rewrite <- En in *. fold (k_uid e) in *. split.
  { rewrite HK. apply in_or_app. right. now apply in_map. }
  split; [exact Kd|]. apply Qeq_bool_eq, Qeq_eqR in H1. rewrite <- H1.
  exact (const_rescale (objs (lib fread)) (objs (klib fread)) (k_uid e) r (Qc2R (k_value e)) (ks_of z) q (lib_env fread) HX Dd Kd (klib_fresh fread e) Hr Hf Hq).
Qed.

(** The constants of positive value form, with the units, a collection of definitions
    that the conversion theorems (C10 ...) speak about; the constants of negative value do
    not disturb them. *)
Lemma pos_const_ok e : pos_const e = true -> 0 < Qc2R (k_value e).
Proof.
  unfold pos_const, Qc2R. intros H. apply Z.ltb_lt in H. rewrite <- RMicromega.Q2R_0. apply Qlt_Rlt.
  unfold Qlt. cbn. lia.
Qed.
Lemma NoDup_filter_map {X Y} (f : X -> Y) p l : NoDup (map f l) -> NoDup (map f (filter p l)).
Proof.
  induction l as [|x l IH]; intros H; [constructor|]. cbn [map filter] in *. inversion H as [|y ys H1 H2]; subst.
  destruct (p x); auto. cbn [map]. constructor; auto. intros Z. apply H1. apply in_map_iff in Z. destruct Z as (z & Hz & Hi).
  apply filter_In in Hi. rewrite <- Hz. apply in_map, Hi.
Qed.
Lemma klib_pos_eq fread : exists sh, 
  let match_all (st : rstate R) l := exists X, objs st = objs (lib fread) ++ X /\ Forall2 (kmatch (parse_arith fread) (lib fread) sh) l X in
  match_all (klib fread) constants /\ match_all (klib_pos fread) pos_constants /\ renv_ok (objs (klib_pos fread)).
Proof.
  destruct (klib_sim fread) as (sh & HS & HK & HN & HD & _). exists sh. cbv zeta.
  destruct (krun_gen (parse_arith fread) (lib fread) sh constants constants HS HK (fun _ H => H) HN (lib_env fread)) as (st & X & H1 & H2 & _ & _ & H5 & _).
  assert (Hi : forall e, In e pos_constants -> In e constants) by (intros e He; exact (proj1 (proj1 (filter_In _ _ _) He))).
  destruct (krun_gen (parse_arith fread) (lib fread) sh pos_constants constants HS HK Hi HN (lib_env fread)) as (st' & X' & H1' & H2' & _ & _ & H5' & H6').
  unfold klib, klib_pos. rewrite H1, H1'. cbn [fst]. split; [exists X; split; assumption|]. split; [exists X'; split; assumption|].
  apply H6'.
  - apply Forall_forall. intros e He. apply pos_const_ok. exact (proj2 (proj1 (filter_In _ _ _) He)).
  - apply NoDup_filter_map. exact HD.
Qed.
Lemma match_ref parse st sh (E E' : uenv R) l l' X X' :
  NoDup (dkeys E) -> NoDup (dkeys E') -> E = objs st ++ X -> E' = objs st ++ X' ->
  Forall2 (kmatch parse st sh) l X -> Forall2 (kmatch parse st sh) l' X' -> (forall e, In e l' -> In e l) ->
  forall u, In u (dkeys E') -> unit_ref E u = unit_ref E' u.
Proof.
  intros N1 N2 -> -> H H' Hi u Hu. rewrite dkeys_app in Hu. apply in_app_or in Hu. destruct Hu as [Hu|Hu].
  - now rewrite !unit_ref_extend.
  - rewrite (f2_keys _ _ _ _ _ H') in Hu. apply in_map_iff in Hu. destruct Hu as (e & <- & He).
    destruct (f2_in _ _ _ _ _ H' e He) as ([u' r'] & Ho' & K1' & _ & _ & d' & D' & _ & _ & _ & F').
    destruct (f2_in _ _ _ _ _ H e (Hi e He)) as ([u r] & Ho & K1 & _ & _ & d & D & _ & _ & _ & F).
    cbn [fst snd] in *. subst u u'. assert (d' = d) by congruence. subst d'.
    assert (L : ulookup (objs st ++ X) (k_uid e) = Some r).
    { apply In_dget; [apply uid_eqb_eq|exact N1|]. apply in_or_app. now right. }
    assert (L' : ulookup (objs st ++ X') (k_uid e) = Some r').
    { apply In_dget; [apply uid_eqb_eq|exact N2|]. apply in_or_app. now right. }
    unfold unit_ref. now rewrite L, L', F, F'.
Qed.
Lemma rescale_to_refs (E E' : uenv R) (q : qty R) d :
  (forall u, In u (dkeys (qdim q)) -> unit_ref E u = unit_ref E' u) -> (forall u, In u (dkeys d) -> unit_ref E u = unit_ref E' u) ->
  rescale_to E q d = rescale_to E' q d.
Proof.
  intros H1 H2. unfold rescale_to, conv_factor, qty_ref.
  rewrite (ref_pair_ext E E' (qdim q) H1), (ref_pair_ext E E' d H2). reflexivity.
Qed.
Theorem C104_positive : forall fread,
  renv_ok (objs (klib_pos fread)) /\
  (forall e, In e constants -> 0 < Qc2R (k_value e) -> In (k_uid e) (dkeys (objs (klib_pos fread)))) /\
  forall (q : qty R) d,
    (forall u, In u (dkeys (qdim q)) -> In u (dkeys (objs (klib_pos fread)))) ->
    (forall u, In u (dkeys d) -> In u (dkeys (objs (klib_pos fread)))) ->
    rescale_to (objs (klib fread)) q d = rescale_to (objs (klib_pos fread)) q d.
Proof.
  intros fread. destruct (klib_pos_eq fread) as (sh & (X & H1 & H2) & (X' & H1' & H2') & HE).
  split; [exact HE|]. split.
  - intros e He Hp. rewrite H1', dkeys_app. apply in_or_app. right. rewrite (f2_keys _ _ _ _ _ H2').
    apply in_map. apply filter_In. split; [exact He|]. unfold pos_const. apply Z.ltb_lt.
    unfold Qc2R in Hp. rewrite <- RMicromega.Q2R_0 in Hp. apply Rlt_Qlt in Hp. unfold Qlt in Hp. cbn in Hp. lia.
  - intros q d Kq Kd.
    assert (HR : forall u, In u (dkeys (objs (klib_pos fread))) -> unit_ref (objs (klib fread)) u = unit_ref (objs (klib_pos fread)) u).
    { destruct (C104_import fread) as (_ & _ & HN & _).
      refine (match_ref (parse_arith fread) (lib fread) sh _ _ constants pos_constants X X' HN _ H1 H1' H2 H2' _).
      - exact (NoDup_env _ _ HE).
      - intros e He. exact (proj1 (proj1 (filter_In _ _ _) He)). }
    exact (rescale_to_refs _ _ q d (fun u Hu => HR u (Kq u Hu)) (fun u Hu => HR u (Kd u Hu))).
Qed.
(** ... so conversions preserve what a quantity stands for. *)
Theorem C104_conversions : forall fread (q r : qty R) d,
  dims_ok (qdim q) -> dims_ok d ->
  (forall u, In u (dkeys (qdim q)) -> In u (dkeys (objs (klib_pos fread)))) ->
  (forall u, In u (dkeys d) -> In u (dkeys (objs (klib_pos fread)))) ->
  rescale_to (objs (klib fread)) q d = Ok r ->
  forall phi, consistent (objs (klib_pos fread)) phi -> phys phi r = phys phi q.
Proof.
  intros fread q r d Dq Dd Kq Kd H phi HC. destruct (C104_positive fread) as (HE & _ & HP).
  rewrite (HP q d Kq Kd) in H. exact (rescale_value _ q d r HE Dq Dd H phi HC).
Qed.

(** ** Names and symbols *)
(** C104: no string means a constant: the registry knows none of them. *)
Theorem C104_no_names : forall fread s v, ctx_get (klib fread) s = Some v ->
  exists i u r, v = VUnit i /\ nth_error (objs (klib fread)) i = Some (u, r) /\ u_cls u <> CConstant.
Proof.
  intros fread s v H. destruct (C104_import fread) as (_ & _ & _ & [X HX] & HC & _). rewrite HC in H. clear HC.
  destruct (C73_nothing_else fread s v H) as (i & e & -> & He & _).
  destruct (lib_obj fread i e He) as [r Hr]. exists i, (entry_uid e), r. split; [reflexivity|]. split.
  - rewrite HX. rewrite nth_error_app1; [exact Hr|]. apply nth_error_Some. rewrite Hr. discriminate.
  - destruct (klib_sim fread) as (_ & _ & _ & HN & _). apply HN. apply nth_error_In in Hr. exact (in_map fst _ _ Hr).
Qed.
(** A quantity in units of a constant is printed with the symbol of the constant. *)
Theorem C104_printed : forall fread frepr e c s, In e constants -> k_sym e = Some (String c s) ->
  format_units (objs (klib fread)) frepr false [(k_uid e, PInt 1)] = T (String c s).
Proof.
  intros fread frepr e c s He Hs. destruct (klib_entries fread) as (sh & _ & _ & HE).
  destruct (HE e He) as (d & _ & _ & _ & r & Hr & Hy & _). clear HE. generalize dependent (objs (klib fread)). intros E Hr.
  unfold format_units, num_items, den_items, sorted_items.
  change (sort_by (fun kv => unit_order E (fst kv)) [(k_uid e, PInt 1)]) with [(k_uid e, PInt 1)].
  cbn [filter].
  change (Markup.ppos (snd (k_uid e, PInt 1))) with true. change (pneg_b (snd (k_uid e, PInt 1))) with false.
  cbn [map fst snd]. unfold factor_text. cbn [fst snd]. change (peqb (PInt 1) (PInt 1)) with true. cbn iota.
  unfold shown, unit_symbol. rewrite Hr, Hy, Hs. reflexivity.
Qed.
(** Unlike those of units (C73_labels_read_back), such labels do not read back: the Planck
    constant is printed as 'h', which is the hour; and the constant and the unit with the
    name astronomical_unit, which are both printed as 'au', differ. *)
Theorem C104_labels_refuted : forall fread frepr,
  (format_units (objs (klib fread)) frepr false [(UId CConstant "Planck_constant", PInt 1)] = T "h" /\
   exists i r, get_item (parse_arith fread) (klib fread) (T "h") = Ok (VUnit i) /\
     nth_error (objs (klib fread)) i = Some (uT "hour", r)) /\
  (format_units (objs (klib fread)) frepr false [(UId CConstant "astronomical_unit", PInt 1)] = T "au" /\
   (exists i r, get_item (parse_arith fread) (klib fread) (T "au") = Ok (VUnit i) /\
     nth_error (objs (klib fread)) i = Some (uL "astronomical_unit", r)) /\
   forall q q' : qty R, awf (mag q) -> awf (mag q') ->
     qdim q = [(UId CConstant "astronomical_unit", PInt 1)] -> qdim q' = [(uL "astronomical_unit", PInt 1)] ->
     exists r r', rescale_to (objs (klib fread)) q [(uL "meter", PInt 1)] = Ok r /\
       mag r = amap (fun x => 149597870700 * x) (mag q) /\
       rescale_to (objs (klib fread)) q' [(uL "meter", PInt 1)] = Ok r' /\
       mag r' = amap (fun x => 149597870691 * x) (mag q')).
Proof.
  intros fread frepr.
  assert (Hsym : forall n c s, existsb (fun e => String.eqb n (k_name e) && match k_sym e with Some y => String.eqb y (String c s) | None => false end) constants = true ->
     format_units (objs (klib fread)) frepr false [(UId CConstant n, PInt 1)] = T (String c s)).
  { intros n c s H. apply existsb_exists in H. destruct H as (e & He & H). apply andb_prop in H. destruct H as [H1 H2].
    apply String.eqb_eq in H1. destruct (k_sym e) as [y|] eqn:Ey; [|discriminate H2]. apply String.eqb_eq in H2.
    rewrite H1. rewrite H2 in Ey. exact (C104_printed fread frepr e c s He Ey). }
  assert (Hnm : forall u s, existsb (fun e => uid_eqb u (entry_uid e) && existsb (teqb (T s)) (entry_names e)) library = true ->
     identb (T s) = true -> teqb (lower (T s)) (T "in") = false -> 
     (exists i r, get_item (parse_arith fread) (klib fread) (T s) = Ok (VUnit i) /\ nth_error (objs (klib fread)) i = Some (u, r))).
  { intros u s H Hi Hl. apply existsb_exists in H. destruct H as (e & He & H). apply andb_prop in H. destruct H as [H1 H2].
    apply uid_eqb_eq in H1. apply existsb_exists in H2. destruct H2 as (x & Hx & E). apply teqb_eq in E. subst x.
    apply In_nth_error in He. destruct He as [i He]. 
    destruct (lib_obj fread i e He) as [r Hr]. destruct (lib_name fread i e (T s) He Hx) as [Hc _].
    destruct (C104_import fread) as (_ & _ & _ & [X HX] & HC & _). exists i, r. split.
    - apply (ident_get fread (fun _ => [])); [now apply identb_ok| |now rewrite HC].
      intros Y. apply teqb_eq in Y. rewrite Y in Hl. discriminate Hl.
    - rewrite HX, nth_error_app1; [now rewrite H1|]. apply nth_error_Some. rewrite Hr. discriminate. }
  split; [split|split; [|split]].
  - apply Hsym. vm_compute. reflexivity.
  - apply Hnm; vm_compute; reflexivity.
  - apply Hsym. vm_compute. reflexivity.
  - apply Hnm; vm_compute; reflexivity.
  - clear Hsym Hnm. intros q q' Wq Wq' Hq Hq'.
    assert (Hz : In (Const "astronomical_unit" 149597870700 [(meter, PInt 1)]) known_constants).
    { unfold known_constants. do 20 right. left. reflexivity. }
    destruct (C104_known fread _ q Hz Hq) as (_ & _ & H1). cbn [ks_of ks_value] in H1.
    destruct (klib_sim fread) as (sh & HS & _ & _ & _ & _ & HA).
    destruct (size_ok_conv _ _ au_unit (lib_env fread) (sim_env _ _ _ HS) HA) as (D1 & K1 & K2 & HC).
    destruct (rescale_factor (objs (lib fread)) q' [(uL "meter", PInt 1)] (Q2R 149597870691) (lib_env fread)) as (r' & Hr & Hm & _).
    { split; [exact Wq'|]. rewrite Hq'. exact (dims_ok_unit (uL "astronomical_unit")). }
    { exact D1. }
    { rewrite Hq'. exact HC. }
    eexists. exists r'. split; [exact H1|]. split; [|split].
    + cbn [mag]. apply amap_ext. intros x _. unfold Q2R. cbn. field.
    + rewrite C104_frame; [exact Hr| |exact K2]. rewrite Hq'. intros u [<-|[]]. exact K1.
    + rewrite Hm. apply amap_ext. intros x _. unfold Q2R. cbn. field.
Qed.

(** An exception in one of these calls would end the import. *)
Theorem C104_exception_ends_import : forall A (N : Num A) parse (st st1 st2 : rstate A) l1 e l2 x,
  krun parse st l1 = (st1, Ok tt) -> kstep parse st1 e = (st2, Err x) ->
  krun parse st (l1 ++ e :: l2) = (st2, Err x).
Proof.
  intros A N parse st st1 st2 l1 e l2 x. revert st. induction l1 as [|e1 l1 IH]; intros st H Hs; cbn [app krun] in *.
  - injection H as ->. now rewrite Hs.
  - destruct (kstep parse st e1) as [st' [v|y]]; [now apply IH|discriminate H].
Qed.

(** ** Examples *)
Lemma in_constants f : existsb f constants = true -> exists e, In e constants /\ f e = true.
Proof. exact (proj1 (existsb_exists f constants)). Qed.
(** There are constants of both signs, with and without units. *)
Example C104_ex_entries :
  (exists e, In e constants /\ k_label e = Some "J*T**-1"%string /\ pos_const e = false) /\
  (exists e, In e constants /\ k_label e = None /\ pos_const e = true).
Proof.
  split.
  - destruct (in_constants (fun e => match k_label e with Some l => String.eqb l "J*T**-1" && negb (pos_const e) | None => false end)) as (e & He & H);
      [vm_compute; reflexivity|].
    exists e. split; [exact He|]. destruct (k_label e) as [l|]; [|discriminate H]. apply andb_prop in H. destruct H as [H1 H2].
    apply String.eqb_eq in H1. apply negb_true_iff in H2. split; [now rewrite H1|exact H2].
  - destruct (in_constants (fun e => match k_label e with Some l => false | None => pos_const e end)) as (e & He & H);
      [vm_compute; reflexivity|].
    exists e. split; [exact He|]. destruct (k_label e) as [l|]; [discriminate H|]. auto.
Qed.
(** Three Boltzmann constants, in J/K. *)
Example C104_ex_boltzmann : forall fread,
  rescale_to (objs (klib fread)) (Qty (scalar 3) [(UId CConstant "Boltzmann_constant", PInt 1)])
    [(uQ "joule", PInt 1); (uK "Kelvin", PInt (-1))] =
  Ok (Qty (amap (fun x => Q2R (13806504 # 10 ^ 30) * x) (scalar 3)) [(uQ "joule", PInt 1); (uK "Kelvin", PInt (-1))]).
Proof.
  intros fread.
  assert (Hz : In (Const "Boltzmann_constant" (13806504 # 10 ^ 30) [(joule, PInt 1); (kelvin, PInt (-1))]) known_constants).
  { unfold known_constants. do 10 right. left. reflexivity. }
  destruct (C104_known fread _ (Qty (scalar 3) [(UId CConstant "Boltzmann_constant", PInt 1)]) Hz eq_refl) as (_ & _ & H). exact H.
Qed.

Print Assumptions C104_import.
Print Assumptions C104_frame.
Print Assumptions C104_value.
Print Assumptions C104_pure_numbers.
Print Assumptions C104_known.
Print Assumptions C104_positive.
Print Assumptions C104_conversions.
Print Assumptions C104_no_names.
Print Assumptions C104_printed.
Print Assumptions C104_labels_refuted.
Print Assumptions C104_exception_ends_import.
