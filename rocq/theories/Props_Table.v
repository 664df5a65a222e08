(** * Props_Table: the units that the library defines (C73, C89, C103). *)
From Coq Require Import Reals Lra Lia Qreals Ascii NArith.
From Verif Require Import Py Num Dim DimFacts Arr Units Spec UnitFacts Quant QuantFacts SimpFacts ConvFacts Examples
     Text Markup Lex LexFacts Registry RegFacts PrintFacts RoundTrip Props_Registry SpecPickle PickleFacts HistFacts
     Table Import TableFacts SpecSizes.

Open Scope list_scope.
Open Scope R_scope.

(** The state of a process after [import quantities], with magnitudes in the reals;
    [fread] reads float literals in labels. *)
Definition lib (fread : text -> Qc) : rstate R := fst (trun (parse_arith fread) rempty library).

(** ** What the checker computes *)
Fixpoint uids_eqb (l l' : list uid) : bool :=
  match l, l' with
  | [], [] => true
  | u :: l, u' :: l' => uid_eqb u u' && uids_eqb l l'
  | _, _ => false
  end.
Lemma uids_eqb_eq l : forall l', uids_eqb l l' = true -> l = l'.
Proof.
  induction l as [|u l IH]; intros [|u' l'] H; try discriminate; auto. cbn [uids_eqb] in H.
  apply andb_prop in H. destruct H as [H1 H2]. apply uid_eqb_eq in H1. subst u'. f_equal. auto.
Qed.
Definition check_keys (sh : sstate) : bool := uids_eqb (map fst (s_env sh)) (map entry_uid library).
Definition identb (s : text) : bool :=
  match s with
  | [] => false
  | c :: s' => is_idstart c && forallb is_idchar s'
  end && negb (is_keyword s).
Lemma identb_ok s : identb s = true -> identifier s.
Proof.
  unfold identb, identifier. intros H. apply andb_prop in H. destruct H as [H1 H2]. split.
  - destruct s as [|c s]; [discriminate|]. apply andb_prop in H1. destruct H1 as [H1 H3]. split; auto.
    apply Forall_forall. intros x Hx. rewrite forallb_forall in H3. auto.
  - now destruct (is_keyword s).
Qed.
Definition plain_name (s : text) : bool := identb s && negb (teqb (lower s) (T "in")).
(** The names that are not plain identifiers. *)
Definition odd_names : list text := map T ["as"; "in"; "%"; "(esu/s)"]%string.

Definition check_names (sh : sstate) : bool :=
  forallb (fun ie => forallb (fun s =>
      match dget teqb (s_ctx sh) s with Some j => Nat.eqb j (fst ie) | None => false end
      && (existsb (teqb s) odd_names || plain_name s)) (entry_names (snd ie)))
    (combine (seq 0 (length library)) library)
  && forallb (fun si => match nth_error library (snd si) with
                        | Some e => existsb (teqb (fst si)) (entry_names e)
                        | None => false
                        end) (s_ctx sh).
(** Units that are not printed as an identifier: 'as', 'in', '%', '(esu/s)', '(pc/cm**3)'. *)
Definition odd_units : list uid :=
  [uT "attosecond"; uL "inch"; uQ "percent"; uI "statampere"; UId CCompound "pc/cm**3"; UId CDimless "dimensionless"]%string.
Definition sshown (S : list (uid * srec)) (u : uid) : text :=
  match dget uid_eqb S u with
  | Some x => match sr_sym x with Some (String _ _ as s) => T s | _ => unit_name false u end
  | None => unit_name false u
  end.
Definition check_shown (sh : sstate) : bool :=
  forallb (fun u => existsb (uid_eqb u) odd_units ||
     (plain_name (sshown (s_env sh) u) &&
      match dget teqb (s_ctx sh) (sshown (s_env sh) u) with
      | Some i => match nth_error (s_env sh) i with Some (w, _) => uid_eqb w u | None => false end
      | None => false
      end)) (map entry_uid library).
(** The SI base units (and the bit); there is no currency. *)
Definition lib_root (c : ucls) : uid :=
  match c with
  | CMass => uM "kilogram" | CLength => uL "meter" | CTime => uT "second" | CCurrent => uI "ampere"
  | CLumInt => UId CLumInt "candela" | CSubstance => uN "mole" | CTemperature => uK "Kelvin"
  | CInformation => uB "bit" | c => UId c "none"
  end%string.
Definition classes : list ucls :=
  [CQuantity; CMass; CLength; CTime; CCurrent; CLumInt; CSubstance; CTemperature; CInformation; CCurrency; CCompound; CDimless; CConstant].
Lemma in_classes c : In c classes.
Proof. destruct c; cbn; auto 20. Qed.
Definition has_base (c : ucls) : bool := is_irreducible c && negb (ucls_eqb c CCurrency).
Definition check_defaults (sh : sstate) : bool :=
  forallb (fun c => match dget ucls_eqb (s_dflt sh) c with
                    | Some [(u, PInt 1)] => uid_eqb u (lib_root c) && has_base c
                    | Some _ => false
                    | None => negb (has_base c)
                    end &&
                    match dget uid_eqb (s_env sh) (lib_root c) with
                    | Some x => negb (sr_def x)
                    | None => true
                    end) classes.
Definition statampere : uid := uI "statampere"%string.
Definition check_simp (sh : sstate) : bool :=
  forallb (fun u => existsb (uid_eqb u) [statampere; UId CDimless "dimensionless"%string] ||
    if is_irreducible (u_cls u)
    then has_base (u_cls u) && dim_eqb (snd (sref_pair (s_env sh) (unit_dims u))) (snd (sref_pair (s_env sh) [(lib_root (u_cls u), PInt 1)]))
    else forallb (fun w => has_base (u_cls w) && uid_eqb w (lib_root (u_cls w))) (dkeys (snd (sref (s_env sh) u))))
    (map entry_uid library).
Definition check_stat (sh : sstate) : bool :=
  existsb (uid_eqb statampere) (map entry_uid library) &&
  negb (dim_eqb (snd (sref_pair (s_env sh) (unit_dims statampere)))
                (snd (sref_pair (s_env sh) [(lib_root CCurrent, PInt 1)]))) &&
  forallb (fun w => existsb (uid_eqb w) (map lib_root [CMass; CLength; CTime])) (dkeys (snd (sref (s_env sh) statampere))).
Definition check_odd (sh : sstate) : bool :=
  match seval sh (EBin BDiv (EName (T "esu")) (EName (T "s"))) with Some (SQty _ _) => true | _ => false end &&
  match dget teqb (s_ctx sh) (T "international_foot") with None => true | Some _ => false end &&
  match dget teqb (s_ctx sh) (T "in"), dget teqb (s_ctx sh) (T "inch") with Some i, Some j => Nat.eqb i j | _, _ => false end &&
  match dget teqb (s_ctx sh) (T "%"), dget teqb (s_ctx sh) (T "percent") with Some i, Some j => Nat.eqb i j | _, _ => false end.
Definition size_ok (S : list (uid * srec)) (z : size) : bool :=
  let r1 := sref_pair S (unit_dims (sz_unit z)) in
  let r2 := sref_pair S (sz_of z) in
  dims_okb (sz_of z) && known S (sz_unit z) && forallb (known S) (dkeys (sz_of z)) &&
  match fst r1, fst r2 with Some x, Some y => Qeq_bool x (sz_factor z * y) | _, _ => false end &&
  dim_eqb (snd r1) (snd r2).
Definition check_sizes (sh : sstate) : bool := forallb (size_ok (s_env sh)) standard_sizes.
(** A pond is a thousand gram-forces. *)
Definition pond_size : size :=
  Size (uQ "pond"%string) 1000 [(uM "gram"%string, PInt 1); (uQ "standard_gravity"%string, PInt 1)].
Definition check_pond (sh : sstate) : bool := size_ok (s_env sh) pond_size.

(** Every unit whose name is a prefix and the name of another unit. *)
Definition check_prefixes (sh : sstate) : bool :=
  forallb (fun u => forallb (fun pf =>
    if String.eqb (String.substring 0 (String.length (fst pf)) (u_name u)) (fst pf)
    then forallb (fun w => if String.eqb (u_name u) (fst pf ++ u_name w)%string
                           then size_ok (s_env sh) (Size u (snd pf) (one_of w)) else true) (map entry_uid library)
    else true) prefixes) (map entry_uid library).

Lemma lib_checks fread : match srun (parse_arith fread) sempty library with
  | Some sh => check_keys sh && (check_names sh && (check_shown sh && (check_defaults sh && (check_simp sh &&
               (check_stat sh && (check_odd sh && (check_sizes sh && (check_pond sh && check_prefixes sh))))))))
  | None => false
  end = true.
Proof. vm_compute. reflexivity. Qed.
Record checked (sh : sstate) : Prop := Checked {
  ck_keys : check_keys sh = true; ck_names : check_names sh = true; ck_shown : check_shown sh = true;
  ck_defaults : check_defaults sh = true; ck_simp : check_simp sh = true; ck_stat : check_stat sh = true;
  ck_odd : check_odd sh = true; ck_sizes : check_sizes sh = true; ck_pond : check_pond sh = true;
  ck_prefixes : check_prefixes sh = true }.
Lemma lib_sim fread : snd (trun (parse_arith fread) (@rempty R) library) = Ok tt /\
  exists sh, sim (parse_arith fread) (lib fread) sh /\ checked sh.
Proof.
  pose proof (lib_checks fread) as H. unfold lib.
  destruct (srun (parse_arith fread) sempty library) as [sh|] eqn:E; [|discriminate].
  destruct (srun_ok (parse_arith fread) library rempty sempty sh (sim_empty _) E) as (st' & -> & HS).
  split; [reflexivity|]. exists sh. split; [exact HS|].
  apply andb_prop in H. destruct H as [H1 H]. apply andb_prop in H. destruct H as [H2 H].
  apply andb_prop in H. destruct H as [H3 H]. apply andb_prop in H. destruct H as [H4 H].
  apply andb_prop in H. destruct H as [H5 H]. apply andb_prop in H. destruct H as [H6 H].
  apply andb_prop in H. destruct H as [H7 H]. apply andb_prop in H. destruct H as [H8 H].
  apply andb_prop in H. destruct H as [H9 H10].
  constructor; assumption.
Qed.
Opaque lib library.
Lemma lib_hist fread : history (parse_arith fread) (lib fread).
Proof. destruct (lib_sim fread) as (_ & sh & HS & _). exact (sim_hist _ _ _ HS). Qed.
Lemma lib_env fread : renv_ok (objs (lib fread)).
Proof. exact (ho_env _ _ (history_ok _ _ (lib_hist fread))). Qed.
Lemma match_keys E S : Forall2 rmatch E S -> dkeys E = map fst S.
Proof. unfold dkeys. induction 1 as [|o x E S H HF IH]; cbn [map]; auto. now rewrite IH, (proj1 H). Qed.
Lemma lib_keys fread : dkeys (objs (lib fread)) = map entry_uid library.
Proof.
  destruct (lib_sim fread) as (_ & sh & HS & HC). rewrite (match_keys _ _ (sim_env _ _ _ HS)).
  apply uids_eqb_eq. exact (ck_keys _ HC).
Qed.

(** C73: the import succeeds; it creates exactly the units of the table, no class and
    name twice, each from units created before and with a positive factor ([history]),
    so that the collection of unit definitions is one that the conversion theorems
    (C10 ...) speak about. *)
Theorem C73_import : forall fread,
  snd (trun (parse_arith fread) (@rempty R) library) = Ok tt /\
  dkeys (objs (lib fread)) = map entry_uid library /\ NoDup (map entry_uid library) /\
  history (parse_arith fread) (lib fread) /\ renv_ok (objs (lib fread)).
Proof.
  intros fread. split; [apply lib_sim|]. split; [apply lib_keys|]. split.
  - rewrite <- (lib_keys fread). exact (NoDup_env _ _ (lib_env fread)).
  - split; [apply lib_hist|apply lib_env].
Qed.

(** An exception in one of the constructor calls would end the import: nothing after it
    would be executed. *)
Theorem C73_exception_ends_import : forall A (N : Num A) parse (st st1 st2 : rstate A) l1 e l2 x,
  trun parse st l1 = (st1, Ok tt) -> tstep parse st1 e = (st2, Err x) ->
  trun parse st (l1 ++ e :: l2) = (st2, Err x).
Proof.
  intros A N parse st st1 st2 l1 e l2 x. revert st. induction l1 as [|e1 l1 IH]; intros st H1 H2; cbn [app trun] in *.
  - injection H1 as ->. now rewrite H2.
  - destruct (tstep parse st e1) as [st' [v|y]]; [|discriminate H1]. now apply IH.
Qed.
(** ** Names *)
Lemma nth_combine_seq {X} (l : list X) i e k : nth_error l i = Some e -> In ((k + i)%nat, e) (combine (seq k (length l)) l).
Proof.
  revert k i. induction l as [|x l IH]; intros k i H; [destruct i; discriminate|].
  cbn [length seq combine]. destruct i as [|i]; cbn [nth_error] in H.
  - injection H as <-. left. now rewrite Nat.add_0_r.
  - right. replace (k + S i)%nat with (S k + i)%nat by lia. now apply IH.
Qed.
Lemma lib_obj fread i e : nth_error library i = Some e -> exists r, nth_error (objs (lib fread)) i = Some (entry_uid e, r).
Proof.
  intros H. assert (G : nth_error (dkeys (objs (lib fread))) i = Some (entry_uid e)).
  { rewrite lib_keys. now apply map_nth_error. }
  unfold dkeys in G. rewrite nth_error_map in G. destruct (nth_error (objs (lib fread)) i) as [[u r]|]; [|discriminate].
  cbn [option_map fst] in G. injection G as ->. eauto.
Qed.
Lemma lib_name fread i e s : nth_error library i = Some e -> In s (entry_names e) ->
  ctx_get (lib fread) s = Some (VUnit i) /\ (In s odd_names \/ plain_name s = true).
Proof.
  intros He Hs. destruct (lib_sim fread) as (_ & sh & HS & HK). pose proof (ck_names _ HK) as H. unfold check_names in H. apply andb_prop in H. destruct H as [H _].
  rewrite forallb_forall in H. specialize (H (i, e)). cbn [fst snd] in H.
  rewrite forallb_forall in H. specialize (H (nth_combine_seq library i e 0%nat He) s Hs).
  apply andb_prop in H. destruct H as [H1 H2]. split.
  - rewrite (sim_ctx _ _ _ HS). destruct (dget teqb (s_ctx sh) s) as [j|]; [|discriminate H1].
    apply Nat.eqb_eq in H1. now subst j.
  - apply orb_prop in H2. destruct H2 as [H2|H2]; [left|now right].
    apply existsb_exists in H2. destruct H2 as (x & Hx & E). apply teqb_eq in E. now subst x.
Qed.

(** Every name, symbol and alias of the table that is an identifier means exactly the
    unit it was given to; so do '%' and 'in'. *)
Theorem C73_names : forall fread i e s,
  nth_error library i = Some e -> In s (entry_names e) -> ~ In s (map T ["as"; "(esu/s)"]%string) ->
  get_item (parse_arith fread) (lib fread) s = Ok (VUnit i) /\
  exists r, nth_error (objs (lib fread)) i = Some (entry_uid e, r).
Proof.
  intros fread i e s He Hs Hn. destruct (lib_sim fread) as (_ & sh & HS & HK). split; [|now apply lib_obj].
  destruct (lib_name fread i e s He Hs) as [Hc [Hodd|Hp]].
  - assert (Hj : s = T "in" \/ s = T "%").
    { cbn [odd_names map] in Hodd, Hn. destruct Hodd as [<-|[<-|[<-|[<-|[]]]]]; auto; exfalso; apply Hn; cbn [In]; auto. }
    pose proof (ck_odd _ HK) as HO. unfold check_odd in HO.
    apply andb_prop in HO. destruct HO as [HO O4]. apply andb_prop in HO. destruct HO as [_ O3].
    assert (Hj' : exists t, preprocess s = t /\ identifier t /\ lower t <> T "in" /\ preprocess t = t /\
                            dget teqb (s_ctx sh) t = dget teqb (s_ctx sh) s).
    { destruct Hj as [-> | ->]; [exists (T "inch")|exists (T "percent")]; (split; [reflexivity|]); (split; [apply identb_ok; reflexivity|]);
        (split; [discriminate|]); (split; [reflexivity|]).
      - destruct (dget teqb (s_ctx sh) (T "in")); [|discriminate]. destruct (dget teqb (s_ctx sh) (T "inch")); [|discriminate].
        apply Nat.eqb_eq in O3. now subst.
      - destruct (dget teqb (s_ctx sh) (T "%")); [|discriminate]. destruct (dget teqb (s_ctx sh) (T "percent")); [|discriminate].
        apply Nat.eqb_eq in O4. now subst. }
    destruct Hj' as (t & E1 & E2 & E3 & E4 & E5).
    assert (Ht : ctx_get (lib fread) t = Some (VUnit i)).
    { rewrite <- Hc, !(sim_ctx _ _ _ HS). now rewrite E5. }
    pose proof (ident_get fread (fun _ => []) (lib fread) t _ E2 E3 Ht) as G. unfold get_item in *. rewrite E4 in G. now rewrite E1.
  - unfold plain_name in Hp. apply andb_prop in Hp. destruct Hp as [H1 H2].
    apply (ident_get fread (fun _ => [])); auto; [now apply identb_ok|]. intros X. apply teqb_eq in X. rewrite X in H2. discriminate H2.
Qed.
(** No two units share a name, and nothing else is registered. *)
Theorem C73_unambiguous : forall i j e e' s,
  nth_error library i = Some e -> nth_error library j = Some e' ->
  In s (entry_names e) -> In s (entry_names e') -> i = j.
Proof.
  intros i j e e' s H1 H2 H3 H4. destruct (lib_name (fun _ => 0%Qc) i e s H1 H3) as [E1 _].
  destruct (lib_name (fun _ => 0%Qc) j e' s H2 H4) as [E2 _]. congruence.
Qed.
Theorem C73_nothing_else : forall fread s v, ctx_get (lib fread) s = Some v ->
  exists i e, v = VUnit i /\ nth_error library i = Some e /\ In s (entry_names e).
Proof.
  intros fread s v H. destruct (lib_sim fread) as (_ & sh & HS & HK). rewrite (sim_ctx _ _ _ HS) in H.
  destruct (dget teqb (s_ctx sh) s) as [i|] eqn:Ei; [|discriminate H]. injection H as <-.
  apply dget_In in Ei; [|apply teqb_eq].
  pose proof (ck_names _ HK) as C. unfold check_names in C. apply andb_prop in C. destruct C as [_ C].
  rewrite forallb_forall in C. specialize (C _ Ei). cbn [fst snd] in C.
  destruct (nth_error library i) as [e|] eqn:Ee; [|discriminate C]. exists i, e. split; auto. split; auto.
  apply existsb_exists in C. destruct C as (x & Hx & E). apply teqb_eq in E. now subst x.
Qed.
(** ... but the symbol 'as' (attosecond) is a Python keyword, the symbol '(esu/s)'
    (statampere) is read as a quotient, the alias 'international_foot' does not exist (a
    comma is missing in length.py:79), and the oersted has the alias 'aliases'
    (electromagnetism.py:267). *)
Theorem C73_symbols_refuted : forall fread,
  let get s := get_item (parse_arith fread) (lib fread) (T s) in
  (exists e, In e library /\ entry_uid e = uT "attosecond" /\ In (T "as") (entry_names e)) /\
  get "as"%string = Err SyntaxError /\
  (exists e, In e library /\ entry_uid e = uI "statampere" /\ In (T "(esu/s)") (entry_names e)) /\
  (exists q, get "(esu/s)"%string = Ok (VQty q)) /\
  get "international_foot"%string = Err LookupError /\
  (exists i r, get "aliases"%string = Ok (VUnit i) /\ nth_error (objs (lib fread)) i = Some (uQ "oersted", r)).
Proof.
  intros fread get. destruct (lib_sim fread) as (_ & sh & HS & HK). 
  pose proof (ck_odd _ HK) as HO. unfold check_odd in HO.
  apply andb_prop in HO. destruct HO as [HO _]. apply andb_prop in HO. destruct HO as [HO _].
  apply andb_prop in HO. destruct HO as [HO1 HO2].
  assert (Ex : forall u s, existsb (fun e => uid_eqb u (entry_uid e) && existsb (teqb s) (entry_names e)) library = true ->
    exists e, In e library /\ entry_uid e = u /\ In s (entry_names e)).
  { intros u s H. apply existsb_exists in H. destruct H as (e & He & H). apply andb_prop in H. destruct H as [H1 H2].
    apply uid_eqb_eq in H1. apply existsb_exists in H2. destruct H2 as (x & Hx & E). apply teqb_eq in E. subst x. eauto. }
  split; [apply Ex; vm_compute; reflexivity|].
  split; [subst get; reflexivity|].
  split; [apply Ex; vm_compute; reflexivity|]. split; [|split].
  - assert (P : parse_arith fread (preprocess (T "(esu/s)")) = Ok (EBin BDiv (EName (T "esu")) (EName (T "s")))) by (vm_compute; reflexivity).
    destruct (seval sh (EBin BDiv (EName (T "esu")) (EName (T "s")))) as [[p|i u|o d]|] eqn:Es; try discriminate HO1.
    destruct (seval_ok _ _ _ _ HS _ Es) as (Hp & v & Ev & (a & -> & _)).
    exists (Qty (scalar a) d). subst get. cbv beta. unfold get_item, inner_get. rewrite P. cbn [bind].
    rewrite (product_valid _ Hp), Ev. reflexivity.
  - subst get. cbv beta. apply C61_unknown_names; [apply identb_ok; reflexivity|discriminate| |discriminate].
    rewrite (sim_ctx _ _ _ HS).
    destruct (dget teqb (s_ctx sh) (T "international_foot")); [discriminate HO2|reflexivity].
  - destruct (Ex (uQ "oersted") (T "aliases")) as (e & He & Eu & Hs); [vm_compute; reflexivity|].
    apply In_nth_error in He. destruct He as [i Hi]. rewrite <- Eu.
    destruct (C73_names fread i e (T "aliases") Hi Hs) as [G [r Hr]].
    { intros [X|[X|[]]]; discriminate. }
    exists i, r. auto.
Qed.

(** ** Printing: labels of library units can be read back *)
Lemma shown_match E S u : Forall2 rmatch E S -> shown E false u = sshown S u.
Proof.
  intros H. pose proof (env_get E S u H) as G. unfold shown, unit_symbol, sshown. destruct (dget uid_eqb S u) as [x|].
  - destruct G as (r & -> & (_ & _ & _ & E1 & _)). cbn [snd] in E1. now rewrite E1.
  - now rewrite G.
Qed.

(** The text printed for any product of powers of the other library units evaluates to
    that product, provided that the exponents can be read back. *)
Theorem C73_labels_read_back : forall fread frepr d,
  dims_ok d -> d <> [] ->
  (forall u, In u (dkeys d) -> In u (map entry_uid library) /\ ~ In u odd_units) ->
  (forall u e, In (u, e) d -> exp_printable fread frepr (pabs e)) ->
  exists v d', get_item (parse_arith fread) (lib fread) (format_units (objs (lib fread)) frepr false d) = Ok v /\
    val_q (lib fread) v = Some (Qty (scalar 1) d') /\ forall u, exp_of d' u = exp_of d u.
Proof.
  intros fread frepr d Hd Hne Hu He. destruct (lib_sim fread) as (_ & sh & HS & HK). 
  destruct (round_trip fread frepr (lib fread) d unit_arith_R) as (v & d' & E1 & E2 & _ & E3); [|auto|eauto].
  split; auto. intros u e Hin s. pose proof (In_dkeys _ _ _ Hin) as Hk. destruct (Hu u Hk) as [Hl Ho].
  pose proof (ck_shown _ HK) as C. unfold check_shown in C. rewrite forallb_forall in C. specialize (C u Hl).
  apply orb_prop in C. destruct C as [C|C].
  { exfalso. apply Ho. apply existsb_exists in C. destruct C as (x & Hx & E). apply uid_eqb_eq in E. now subst x. }
  apply andb_prop in C. destruct C as [C1 C2]. rewrite <- (shown_match _ _ u (sim_env _ _ _ HS)) in *.
  fold s in C1, C2. clearbody s. unfold plain_name in C1. apply andb_prop in C1. destruct C1 as [C1 C3].
  split; [now apply identb_ok|]. split; [intros X; rewrite (proj2 (teqb_eq _ _) X) in C3; discriminate C3|].
  split; [|eauto].
  destruct (dget teqb (s_ctx sh) s) as [i|] eqn:Ei; [|discriminate C2].
  destruct (nth_error (s_env sh) i) as [[w x]|] eqn:En; [|discriminate C2]. apply uid_eqb_eq in C2. subst w.
  exists (VUnit i). split; [now rewrite (sim_ctx _ _ _ HS), Ei|].
  destruct (env_nth _ _ (sim_env _ _ _ HS) i u x En) as (r & Hr & _). cbn [val_q]. now rewrite Hr.
Qed.

(** ** Base units *)

(** After the import the default units are the base units, and no base unit has a
    definition. *)
Theorem C73_defaults : forall fread c,
  dflt (lib fread) c = (if has_base c then Some [(lib_root c, PInt 1)] else None) /\
  undefined_unit (objs (lib fread)) (lib_root c).
Proof.
  intros fread c. destruct (lib_sim fread) as (_ & sh & HS & HK). pose proof (ck_defaults _ HK) as H. unfold check_defaults in H. rewrite forallb_forall in H.
  specialize (H c (in_classes c)). apply andb_prop in H. destruct H as [H1 H2]. split.
  - rewrite (sim_dflt _ _ _ HS).
    destruct (dget ucls_eqb (s_dflt sh) c) as [d|].
    + destruct d as [|[u [z|q]] d]; try discriminate H1. destruct z as [|[z|z|]|z]; try discriminate H1. destruct d; [|discriminate H1].
      apply andb_prop in H1. destruct H1 as [H1 H3]. apply uid_eqb_eq in H1. subst u. now rewrite H3.
    + destruct (has_base c); [discriminate H1|reflexivity].
  - intros r Hr. pose proof (env_get _ _ (lib_root c) (sim_env _ _ _ HS)) as G.
    destruct (dget uid_eqb (s_env sh) (lib_root c)) as [x|].
    + destruct G as (r' & Hr' & (_ & _ & _ & _ & _ & G)). cbn [snd] in G.
      assert (r' = r) by congruence. subst r'. destruct (sr_def x); [discriminate H2|exact G].
    + congruence.
Qed.
Lemma root_class c : u_cls (lib_root c) = c.
Proof. destruct c; reflexivity. Qed.
Lemma root_dims_ok c : is_irreducible c = true -> dims_ok [(lib_root c, PInt 1)].
Proof. destruct c; try discriminate; intros _; apply dims_okb_ok; reflexivity. Qed.
Theorem C73_std_defaults : forall fread, std_defaults (objs (lib fread)) (dflt (lib fread)) lib_root.
Proof.
  intros fread c Hc. destruct (C73_defaults fread c) as [D U]. split; [apply root_class|]. split; [exact U|].
  intros dd Hd. rewrite D in Hd. destruct (has_base c); [|discriminate Hd]. injection Hd as <-.
  split; [now apply root_dims_ok|apply convertible_refl].
Qed.
Theorem C73_defaults_wf : forall fread c dd, dflt (lib fread) c = Some dd -> dims_ok dd.
Proof.
  intros fread c dd H. rewrite (proj1 (C73_defaults fread c)) in H. destruct (has_base c) eqn:Eb; [|discriminate H].
  injection H as <-. apply root_dims_ok. unfold has_base in Eb. now destruct (is_irreducible c).
Qed.

(** Sizes of library units in terms of each other. *)
Lemma sizes_convert E S d1 d2 x y q : renv_ok E -> Forall2 rmatch E S -> dims_ok d1 -> dims_ok d2 ->
  fst (sref_pair S d1) = Some x -> fst (sref_pair S d2) = Some y -> Qeq_bool x (q * y) = true ->
  dim_eqb (snd (sref_pair S d1)) (snd (sref_pair S d2)) = true -> converts E d1 d2 (Q2R q).
Proof.
  intros HE HM H1 H2 E1 E2 Eq Ed phi HC.
  destruct (env_ref_pair E S d1 HM) as [[_ A1] A2]. destruct (env_ref_pair E S d2 HM) as [[_ B1] B2].
  rewrite (consistent_ref_pair E phi d1 HE HC H1), (consistent_ref_pair E phi d2 HE HC H2).
  rewrite (A1 x E1), (B1 y E2). rewrite <- A2, <- B2 in Ed.
  assert (Hv : dimval phi (snd (ref_pair E d1)) = dimval phi (snd (ref_pair E d2))).
  { apply dimval_eqb; [exact (ref_pair_wf _ E HE d1)|exact (ref_pair_wf _ E HE d2)|exact Ed]. }
  rewrite Hv. apply Qeq_bool_eq, Qeq_eqR in Eq. rewrite Eq, Q2R_mult. ring.
Qed.
Lemma dims_convert E S d1 d2 : renv_ok E -> Forall2 rmatch E S -> dims_ok d1 -> dims_ok d2 ->
  (convertible E d1 d2 <-> dim_eqb (snd (sref_pair S d1)) (snd (sref_pair S d2)) = true).
Proof.
  intros HE HM H1 H2. rewrite (convertible_iff E d1 d2 HE H1 H2).
  rewrite (proj2 (env_ref_pair E S d1 HM)), (proj2 (env_ref_pair E S d2 HM)). reflexivity.
Qed.

(** Every unit of the library except the statampere can be expressed by base units, so
    that C17-C19 apply: [simplified] of any quantity in these units succeeds. *)
Theorem C73_simplifiable : forall fread u, In u (map entry_uid library) ->
  u <> statampere -> u_cls u <> CDimless ->
  simplifiable (objs (lib fread)) (dflt (lib fread)) lib_root u.
Proof.
  intros fread u Hu Hs Hd. destruct (lib_sim fread) as (_ & sh & HS & HK).
  pose proof (C73_defaults fread) as HD. pose proof (lib_env fread) as HE.
  revert sh HS HK HD HE. generalize (lib fread) as st. intros st sh HS HK HD HE.
  pose proof (sim_env _ _ _ HS) as HM.
  pose proof (ck_simp _ HK) as C. unfold check_simp in C. rewrite forallb_forall in C. specialize (C u Hu).
  apply orb_prop in C. destruct C as [C|C].
  { exfalso. apply existsb_exists in C. destruct C as (x & Hx & E). apply uid_eqb_eq in E. subst x.
    destruct Hx as [<-|[<-|[]]]; [now apply Hs|now apply Hd]. }
  assert (HB : forall c, has_base c = true -> is_irreducible c = true /\ dflt st c <> None).
  { intros c Hb. split; [unfold has_base in Hb; now destruct (is_irreducible c)|].
    rewrite (proj1 (HD c)), Hb. discriminate. }
  unfold simplifiable. destruct (is_irreducible (u_cls u)) eqn:Ei.
  - apply andb_prop in C. destruct C as [C1 C2]. split; [now apply HB|].
    apply (dims_convert _ _ _ _ HE HM (dims_ok_unit u) (root_dims_ok _ Ei)). exact C2.
  - exists (snd (unit_ref (objs st) u)).
    pose proof (unit_ref_roots _ (objs st) u HE) as Hr.
    split; [exact (proj1 Hr)|]. split.
    + intros w Hw. rewrite (proj2 (env_ref _ _ u HM)) in Hw. rewrite forallb_forall in C. specialize (C w Hw).
      apply andb_prop in C. destruct C as [C1 C2]. apply uid_eqb_eq in C2. exists (u_cls w).
      destruct (HB _ C1). auto.
    + exists (fst (unit_ref (objs st) u)). intros phi HC.
      rewrite dimval_unit' by (auto; apply HC). now apply consistent_ref.
Qed.
Theorem C73_simplified_total : forall fread (q : qty R) fuel, dims_ok (qdim q) ->
  (forall u, In u (dkeys (qdim q)) -> In u (map entry_uid library) /\ u <> statampere) ->
  exists r, simplified (S (S fuel)) (objs (lib fread)) (dflt (lib fread)) q = Ok r.
Proof.
  intros fread q fuel Hq Hu.
  apply (simplified_fuel _ _ _ (lib_env fread) (C73_std_defaults fread)); auto.
  intros u Hin. destruct (Hu u Hin). apply C73_simplifiable; auto. now apply Hq.
Qed.
(** The statampere is declared as a unit of current but defined by statcoulombs per
    second, which is not convertible to amperes: [statampere.simplified] raises
    ValueError. *)
Theorem C73_statampere_refuted : forall fread fuel,
  In statampere (map entry_uid library) /\
  simplified (S fuel) (objs (lib fread)) (dflt (lib fread)) (Qty (scalar 1) (unit_dims statampere)) = Err ValueError /\
  (exists d, dims_ok d /\ (forall w, In w (dkeys d) -> In w (map lib_root [CMass; CLength; CTime])) /\
     convertible (objs (lib fread)) (unit_dims statampere) d).
Proof.
  intros fread fuel. destruct (lib_sim fread) as (_ & sh & HS & HK).
  pose proof (C73_defaults fread) as HD. pose proof (lib_env fread) as HE.
  revert sh HS HK HD HE. generalize (lib fread) as st. intros st sh HS HK HD HE.

  pose proof (ck_stat _ HK) as C. unfold check_stat in C. apply andb_prop in C. destruct C as [C C3].
  apply andb_prop in C. destruct C as [C1 C2]. pose proof (sim_env _ _ _ HS) as HM. split; [|split].
  - apply existsb_exists in C1. destruct C1 as (x & Hx & E). apply uid_eqb_eq in E. now rewrite E.
  - unfold simplified, simp_dims. cbn [qdim]. change (unit_dims statampere) with [(statampere, PInt 1)].
    cbn [fold_left bind fst snd]. cbn [simp_unit u_cls statampere uI is_irreducible].
    rewrite (proj1 (HD CCurrent)). cbn [has_base is_irreducible ucls_eqb andb negb].
    replace (dim_eqb _ _) with false by (vm_compute; reflexivity).
    destruct (conv_factor (objs st) (unit_dims statampere) [(lib_root CCurrent, PInt 1)]) as [c|e] eqn:Ec.
    + exfalso. assert (Hc : convertible (objs st) (unit_dims statampere) [(lib_root CCurrent, PInt 1)]).
      { exists c. apply (conv_factor_spec _ _ _ HE (dims_ok_unit statampere) (root_dims_ok CCurrent eq_refl)). exact Ec. }
      apply (dims_convert _ _ _ _ HE HM (dims_ok_unit statampere) (root_dims_ok CCurrent eq_refl)) in Hc.
      rewrite Hc in C2. discriminate C2.
    + apply conv_factor_err in Ec. subst e. reflexivity.
  - exists (snd (unit_ref (objs st) statampere)).
    split; [exact (proj1 (unit_ref_roots _ (objs st) statampere HE))|]. split.
    + intros w Hw. rewrite (proj2 (env_ref _ _ statampere HM)) in Hw.
      rewrite forallb_forall in C3. specialize (C3 w Hw). apply existsb_exists in C3. destruct C3 as (x & Hx & E).
      apply uid_eqb_eq in E. now subst x.
    + exists (fst (unit_ref (objs st) statampere)). intros phi HC.
      rewrite dimval_unit' by (try discriminate; apply HC). apply consistent_ref; auto. discriminate.
Qed.

(** ** C89: sizes *)
Lemma size_ok_conv E S z : renv_ok E -> Forall2 rmatch E S -> size_ok S z = true ->
  dims_ok (sz_of z) /\ In (sz_unit z) (dkeys E) /\ (forall u, In u (dkeys (sz_of z)) -> In u (dkeys E)) /\
  converts E (unit_dims (sz_unit z)) (sz_of z) (Q2R (sz_factor z)).
Proof.
  intros HE HM H. unfold size_ok in H.
  apply andb_prop in H. destruct H as [H H5]. apply andb_prop in H. destruct H as [H H4].
  apply andb_prop in H. destruct H as [H H3]. apply andb_prop in H. destruct H as [H1 H2].
  split; [now apply dims_okb_ok|]. split; [now apply (env_keys _ _ _ HM)|]. split.
  { intros u Hu. rewrite forallb_forall in H3. apply (env_keys _ _ _ HM). auto. }
  destruct (fst (sref_pair S (unit_dims (sz_unit z)))) as [x|] eqn:E1; [|discriminate H4].
  destruct (fst (sref_pair S (sz_of z))) as [y|] eqn:E2; [|discriminate H4].
  exact (sizes_convert E S _ _ x y _ HE HM (dims_ok_unit _) (dims_okb_ok _ H1) E1 E2 H4 H5).
Qed.
Lemma lib_size fread z : In z standard_sizes ->
  dims_ok (sz_of z) /\ In (sz_unit z) (dkeys (objs (lib fread))) /\ (forall u, In u (dkeys (sz_of z)) -> In u (dkeys (objs (lib fread)))) /\
  converts (objs (lib fread)) (unit_dims (sz_unit z)) (sz_of z) (Q2R (sz_factor z)).
Proof.
  intros Hz. destruct (lib_sim fread) as (_ & sh & HS & HK).
  assert (Hok : size_ok (s_env sh) z = true).
  { pose proof (ck_sizes _ HK) as H. unfold check_sizes in H. rewrite forallb_forall in H. exact (H z Hz). }
  exact (size_ok_conv _ _ z (lib_env fread) (sim_env _ _ _ HS) Hok).
Qed.
(** The units of the list SpecSizes.v have the size that their international definition
    says, exactly, in every consistent system of sizes. *)
Theorem C89_standard_sizes : forall fread z, In z standard_sizes ->
  In (sz_unit z) (dkeys (objs (lib fread))) /\ (forall u, In u (dkeys (sz_of z)) -> In u (dkeys (objs (lib fread)))) /\
  converts (objs (lib fread)) (unit_dims (sz_unit z)) (sz_of z) (Q2R (sz_factor z)).
Proof.
  intros fread z Hz. exact (proj2 (lib_size fread z Hz)).
Qed.
(** ... and a quantity in such a unit is converted by that factor. *)
Lemma rescale_factor E (q : qty R) to c : renv_ok E -> qty_ok q -> dims_ok to -> converts E (qdim q) to c ->
  exists r, rescale_to E q to = Ok r /\ mag r = amap (fun x => c * x) (mag q) /\ forall u, exp_of (qdim r) u = exp_of to u.
Proof.
  intros HE Hq Ht Hc. destruct (proj2 (rescale_ok_iff E q to HE (proj2 Hq) Ht)) as [r Hr]; [now exists c|].
  exists r. split; auto. pose proof (rescale_to_dim E q to r (proj1 (proj2 Hq)) (proj1 Ht) Hr) as Hd.
  split; auto. destruct (consistent_exists E HE) as [phi HC].
  pose proof (rescale_value E q to r HE (proj2 Hq) Ht Hr phi HC) as Hv. unfold phys in Hv.
  pose proof (rescale_to_qty_ok E q to r Hq Ht Hr) as Hro.
  rewrite (Hc phi HC) in Hv.
  rewrite (dimval_exp phi (qdim r) to (proj1 (proj2 Hro)) (proj1 Ht) Hd) in Hv.
  assert (Hp : 0 < dimval phi to) by (apply dimval_pos; apply HC).
  apply (f_equal (amap (fun y => y / dimval phi to))) in Hv. rewrite !amap_amap in Hv.
  rewrite (amap_ext _ (fun x => x)) in Hv by (intros; field; lra). rewrite amap_id in Hv. rewrite Hv.
  apply amap_ext. intros. field. lra.
Qed.
Theorem C89_rescale : forall fread z (q : qty R), In z standard_sizes -> awf (mag q) -> qdim q = unit_dims (sz_unit z) ->
  exists r, rescale_to (objs (lib fread)) q (sz_of z) = Ok r /\
    mag r = amap (fun x => Q2R (sz_factor z) * x) (mag q) /\ forall u, exp_of (qdim r) u = exp_of (sz_of z) u.
Proof.
  intros fread z q Hz Hm Hd. destruct (lib_size fread z Hz) as (H1 & _ & _ & H2).
  refine (rescale_factor _ q _ _ (lib_env fread) (conj Hm _) H1 _); rewrite Hd; [apply dims_ok_unit|exact H2].
Qed.
(** C103: a unit whose name is a decimal or binary prefix followed by the name of another
    unit has the size that the prefix says, whatever the kind of unit. *)
Lemma prefix_append p x : String.eqb (String.substring 0 (String.length p) (p ++ x)%string) p = true.
Proof. apply String.eqb_eq. induction p as [|c p IH]; cbn; [now destruct x|]. now rewrite IH. Qed.
Theorem C103_prefixes : forall fread p f u w, In (p, f) prefixes ->
  In u (dkeys (objs (lib fread))) -> In w (dkeys (objs (lib fread))) -> u_name u = (p ++ u_name w)%string ->
  converts (objs (lib fread)) (unit_dims u) (unit_dims w) (Q2R f) /\
  forall q : qty R, awf (mag q) -> qdim q = unit_dims u ->
    exists r, rescale_to (objs (lib fread)) q (unit_dims w) = Ok r /\
      mag r = amap (fun x => Q2R f * x) (mag q) /\ forall v, exp_of (qdim r) v = exp_of (unit_dims w) v.
Proof.
  intros fread p f u w Hp Hu Hw Hn. rewrite lib_keys in Hu, Hw.
  destruct (lib_sim fread) as (_ & sh & HS & HK).
  assert (Hok : size_ok (s_env sh) (Size u f (one_of w)) = true).
  { pose proof (ck_prefixes _ HK) as H. unfold check_prefixes in H. rewrite forallb_forall in H. specialize (H u Hu).
    rewrite forallb_forall in H. specialize (H _ Hp). cbn [fst snd] in H. rewrite Hn, prefix_append in H.
    rewrite forallb_forall in H. specialize (H w Hw). rewrite String.eqb_refl in H. exact H. }
  destruct (size_ok_conv _ _ _ (lib_env fread) (sim_env _ _ _ HS) Hok) as (H1 & _ & _ & H2).
  cbn [sz_unit sz_of sz_factor] in *. unfold one_of in *.
  assert (Hc : u_cls w <> CDimless) by (apply H1; now left).
  assert (Ew : unit_dims w = [(w, PInt 1)]) by (unfold unit_dims; destruct (u_cls w); auto; contradiction).
  rewrite Ew. split; [exact H2|]. intros q Hm Hd.
  refine (rescale_factor _ q _ _ (lib_env fread) (conj Hm _) H1 _); rewrite Hd; [apply dims_ok_unit|exact H2].
Qed.
(** The pond is a gram-force (0.00980665 N), but force.py:29-34 defines it by a
    kilogram. *)
Theorem C89_pond_refuted : forall fread c,
  converts (objs (lib fread)) (unit_dims (uQ "pond"%string)) [(uM "gram"%string, PInt 1); (uQ "standard_gravity"%string, PInt 1)] c <-> c = 1000.
Proof.
  intros fread c. destruct (lib_sim fread) as (_ & sh & HS & HK).
  pose proof (size_ok_conv _ _ pond_size (lib_env fread) (sim_env _ _ _ HS) (ck_pond _ HK)) as (_ & _ & _ & Hc).
  pose proof (lib_env fread) as HE. unfold pond_size in Hc. cbn [sz_unit sz_of sz_factor] in Hc.
  clear HS HK sh. revert HE Hc. generalize (objs (lib fread)) as E. intros E HE Hc.
  assert (E1000 : Q2R 1000 = 1000) by (unfold Q2R; cbn; lra). rewrite E1000 in Hc. split; [|now intros ->].
  intros Hc'. destruct (consistent_exists E HE) as [phi HC]. pose proof (Hc phi HC) as X. pose proof (Hc' phi HC) as Y.
  rewrite X in Y. match type of Y with _ * ?d = _ => assert (Hp : 0 < d) by (apply dimval_pos; apply HC) end.
  symmetry. eapply Rmult_eq_reg_r; [exact Y|lra].
Qed.

(** ** Examples *)
Lemma lib_in u : existsb (uid_eqb u) (map entry_uid library) = true -> In u (map entry_uid library).
Proof. intros H. apply existsb_exists in H. destruct H as (x & Hx & E). apply uid_eqb_eq in E. now subst x. Qed.
(** Three feet are 36 inches; 'ft' means the foot; the foot is printed as 'ft'. *)
Example C89_example : forall fread,
  exists r, rescale_to (objs (lib fread)) (Qty (scalar 3) (unit_dims (uL "foot"%string))) (one_of (uL "inch"%string)) = Ok r /\
    mag r = scalar 36.
Proof.
  intros fread.
  assert (Hz : In (Size (uL "foot"%string) 12 (one_of (uL "inch"%string))) standard_sizes).
  { unfold standard_sizes. apply in_or_app. left. unfold lengths. cbn [In]. auto 20. }
  destruct (C89_rescale fread _ (Qty (scalar 3) (unit_dims (uL "foot"%string))) Hz eq_refl eq_refl) as (r & E1 & E2 & _).
  exists r. split; [exact E1|]. rewrite E2. unfold amap, scalar. cbn [mag dat shp map sz_factor].
  replace (Q2R 12 * 3) with 36 by (unfold Q2R; cbn; lra). reflexivity.
Qed.
(** A unit such as [p ++ w]: a megasecond is a million seconds. *)
Example C103_example : forall fread,
  exists r, rescale_to (objs (lib fread)) (Qty (scalar 2) (unit_dims (uT "megasecond"%string))) (unit_dims (uT "second"%string)) = Ok r /\
    mag r = scalar 2000000.
Proof.
  intros fread.
  assert (Hp : In ("mega"%string, (10 ^ 6)%Q) prefixes) by (unfold prefixes; cbn [In]; auto 20).
  destruct (C103_prefixes fread "mega"%string (10 ^ 6)%Q (uT "megasecond"%string) (uT "second"%string) Hp) as [_ H].
  - rewrite lib_keys. apply lib_in. vm_compute. reflexivity.
  - rewrite lib_keys. apply lib_in. vm_compute. reflexivity.
  - reflexivity.
  - destruct (H (Qty (scalar 2) (unit_dims (uT "megasecond"%string))) eq_refl eq_refl) as (r & E1 & E2 & _).
    exists r. split; [exact E1|]. rewrite E2. unfold amap, scalar. cbn [mag dat shp map].
    replace (Q2R (10 ^ 6) * 2) with 2000000; [reflexivity|].
    assert ((10 ^ 6)%Q == 1000000)%Q as -> by reflexivity. unfold Q2R. cbn [Qnum Qden]. lra.
Qed.
Example C73_names_example : forall fread, exists i r,
  get_item (parse_arith fread) (lib fread) (T "ft") = Ok (VUnit i) /\ nth_error (objs (lib fread)) i = Some (uL "foot"%string, r).
Proof.
  intros fread.
  assert (X : existsb (fun e => uid_eqb (entry_uid e) (uL "foot"%string) && existsb (teqb (T "ft")) (entry_names e)) library = true)
    by (vm_compute; reflexivity).
  apply existsb_exists in X. destruct X as (e & He & X). apply andb_prop in X. destruct X as [X1 X2]. apply uid_eqb_eq in X1.
  apply existsb_exists in X2. destruct X2 as (s & Hs & X2). apply teqb_eq in X2. subst s.
  apply In_nth_error in He. destruct He as [i Hi].
  destruct (C73_names fread i e (T "ft") Hi Hs) as [G [r Hr]]; [intros [Y|[Y|[]]]; discriminate Y|].
  rewrite X1 in Hr. eauto.
Qed.
Example C73_labels_example : forall fread frepr,
  let d := [(uL "mile"%string, PInt 1); (uT "hour"%string, PInt (-1))] in
  exists v d', get_item (parse_arith fread) (lib fread) (format_units (objs (lib fread)) frepr false d) = Ok v /\
    val_q (lib fread) v = Some (Qty (scalar 1) d') /\ forall u, exp_of d' u = exp_of d u.
Proof.
  intros fread frepr d. apply C73_labels_read_back.
  - apply dims_okb_ok. reflexivity.
  - discriminate.
  - intros u [<-|[<-|[]]]; (split; [apply lib_in; vm_compute; reflexivity|]); intros H; cbn [odd_units In] in H; repeat (destruct H as [H|H]; [discriminate H|]); exact H.
  - intros u e [H|[H|[]]]; assert (e = snd (u, e)) as -> by reflexivity; rewrite <- H; cbn [snd pabs exp_printable]; discriminate.
Qed.

Print Assumptions C73_import.
Print Assumptions C73_exception_ends_import.
Print Assumptions C73_names.
Print Assumptions C73_unambiguous.
Print Assumptions C73_nothing_else.
Print Assumptions C73_symbols_refuted.
Print Assumptions C73_labels_read_back.
Print Assumptions C73_defaults.
Print Assumptions C73_std_defaults.
Print Assumptions C73_defaults_wf.
Print Assumptions C73_simplifiable.
Print Assumptions C73_simplified_total.
Print Assumptions C73_statampere_refuted.
Print Assumptions C89_standard_sizes.
Print Assumptions C89_rescale.
Print Assumptions C103_prefixes.
Print Assumptions C89_pond_refuted.
