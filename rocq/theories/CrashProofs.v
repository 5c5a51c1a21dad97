(** A model file that was cut short. *)
Require Import ZArith NArith List Bool Arith Lia Ascii.
Require Import Verif.Base Verif.NumpyModel Verif.NumpySpec Verif.NumpyProofs.
Import ListNotations.
Local Open Scope nat_scope.

Lemma sread_bad n s : st_good s = false -> sread n s = ([], s).
Proof. unfold sread. now intros ->. Qed.
(** nothing is loaded from a failed stream *)
Lemma read_bad big d jk s : st_good s = false -> read_npy big d jk s = Throw ERuntime.
Proof. intros H. unfold read_npy. rewrite sread_bad by assumption. now destruct (_ >? 1)%Z. Qed.
Lemma load_bad big d rm vec jk s : st_good s = false -> load big d rm vec jk s = Throw ERuntime.
Proof. intros H. unfold load. now rewrite read_bad. Qed.
Lemma sread_keeps_bad n s b s' : sread n s = (b, s') -> st_good s = false -> st_good s' = false.
Proof. intros E H. rewrite sread_bad in E by assumption. now injection E as <- <-. Qed.
(** a stream that is good after a read held the bytes *)
Lemma sread_good n s b s' : sread n s = (b, s') -> st_good s' = true ->
  st_good s = true /\ b = firstn n (st_rest s) /\ length b = n /\ st_rest s = b ++ st_rest s'.
Proof.
  unfold sread. destruct (st_good s) eqn:G; intros E H; [|injection E as <- <-; congruence].
  apply pair_equal_spec in E. destruct E as [<- <-]. cbn [st_good st_rest] in *. apply Nat.leb_le in H.
  split; [reflexivity|]. split; [reflexivity|]. split; [rewrite firstn_length; lia|]. now rewrite firstn_skipn.
Qed.

(** a read of an array that leaves the stream good has read it completely *)
Lemma read_good big d jk s x s' : read_npy big d jk s = Ok (x, s') -> st_good s' = true ->
  exists m lb hb db, st_rest s = m ++ lb ++ hb ++ db ++ st_rest s' /\ length m = 8 /\ length lb = 2 /\
    length hb = N.to_nat (if big then N_of_ascii (nth 0 lb zero) * 256 + N_of_ascii (nth 1 lb zero) else N_of_ascii (nth 0 lb zero) + 256 * N_of_ascii (nth 1 lb zero))%N /\
    parse_header_shape (cstr hb) = Ok (ni_shape x) /\ length db = Z.to_nat (in_count (ni_shape x)) * dsize d.
Proof.
  unfold read_npy. destruct (sread 8 s) as [m s1] eqn:E1. destruct (_ >? 1)%Z; [discriminate|]. destruct (Nat.eqb (length m) 0); [discriminate|].
  destruct (sread 2 s1) as [lb s2] eqn:E2.
  match goal with |- context [sread ?n s2] => set (hl := n) end. destruct (sread hl s2) as [hb s3] eqn:E3. cbv zeta.
  destruct (parse_dtype d _) as [e| |]; cbn [bind]; try discriminate. destruct (char_at _ 34) as [t| |]; cbn [bind]; try discriminate.
  destruct (parse_header_shape _) as [shape| |] eqn:Es; cbn [bind]; try discriminate.
  destruct (in_count shape <? 0)%Z; [discriminate|]. destruct (in_count shape =? 0)%Z; [discriminate|].
  destruct (sread (Z.to_nat (in_count shape) * dsize d) s3) as [db s4] eqn:E4. intros H G. injection H as <- <-.
  destruct (sread_good _ _ _ _ E4 G) as (G3 & _ & L4 & R4). destruct (sread_good _ _ _ _ E3 G3) as (G2 & _ & L3 & R3).
  destruct (sread_good _ _ _ _ E2 G2) as (G1 & _ & L2 & R2). destruct (sread_good _ _ _ _ E1 G1) as (_ & _ & L1 & R1).
  exists m, lb, hb, db. rewrite R1, R2, R3, R4. split; [reflexivity|]. split; [assumption|]. split; [assumption|].
  assert (Hl : hl = N.to_nat (if big then N_of_ascii (nth 0 lb zero) * 256 + N_of_ascii (nth 1 lb zero) else N_of_ascii (nth 0 lb zero) + 256 * N_of_ascii (nth 1 lb zero))%N).
  { unfold hl. destruct lb as [|b0 [|b1 [|]]]; try discriminate L2. reflexivity. }
  split; [now rewrite L3|]. cbn [ni_shape]. split; [|assumption]. rewrite L3, Nat.sub_diag in Es. cbn [repeat] in Es. now rewrite app_nil_r in Es.
Qed.

(** the parts of a saved file *)
Lemma saved_form d m file : supported d -> valid_matrix d m -> save false d m = Ok file ->
  exists h, file = magic_and_version ++ le16 (length h) ++ h ++ concat (em_store m) /\ (N.of_nat (length h) < 65536)%N /\ nonzero_bytes h /\
    parse_header_shape h = Ok [Z.of_nat (em_rows m); Z.of_nat (em_cols m)] /\
    in_count [Z.of_nat (em_rows m); Z.of_nat (em_cols m)] = Z.of_nat (em_rows m * em_cols m) /\
    length (concat (em_store m)) = em_rows m * em_cols m * dsize d.
Proof.
  intros Hd (Hr & Hc & Hp & Hl & He). set (r := Z.of_nat (em_rows m)) in *. set (c := Z.of_nat (em_cols m)) in *.
  assert (Hpos : Forall (fun n => 1 <= n)%Z [r; c]) by (repeat constructor; lia).
  assert (Hpr : product [r; c] = (r * c)%Z) by apply product2.
  assert (Hs' : Forall (fun n => 0 <= n < 2 ^ 31)%Z [r; c]) by (repeat constructor; nia).
  destruct (header_parse false d [r; c] (negb (em_rowmajor m)) Hd Hs') as (N1 & N2 & _ & N3).
  set (h := header false d [r; c] (negb (em_rowmajor m))) in *.
  intros S. exists h. split; [|split; [|split; [|split; [|split]]]]; try assumption.
  - unfold save, npout_of_emat, write_npy in S. cbn [no_data no_shape no_fortran] in S. fold r c in S. fold h in S.
    rewrite out_count_product in S by (try assumption; lia). rewrite Hpr in S. replace (Z.to_nat (r * c)) with (length (em_store m)) in S by (rewrite Hl; unfold r, c; lia).
    rewrite Nat.leb_refl, firstn_all in S. injection S as <-. rewrite <- ?app_assoc. reflexivity.
  - pose proof (header_length2 false d r c (negb (em_rowmajor m)) Hd). assert (length h <= 200) by (apply H; nia). lia.
  - rewrite in_count_product by (try assumption; lia). rewrite Hpr. unfold r, c. lia.
  - rewrite (concat_length_uniform (dsize d)) by assumption. now rewrite Hl.
Qed.
(** a proper prefix of a saved file leaves the stream failed, if it is accepted at all *)
Lemma cut_bad d m file rm vec jk c x s' : supported d -> valid_matrix d m -> save false d m = Ok file -> c < length file ->
  load false d rm vec jk (mk_stream (firstn c file) true) = Ok (x, s') -> st_good s' = false.
Proof.
  intros Hd Hm S Hc L. destruct (st_good s') eqn:G; [|reflexivity]. exfalso.
  unfold load in L. destruct (read_npy false d jk _) as [[y s1]| |] eqn:R; cbn [bind] in L; try discriminate L.
  destruct (to_matrix rm vec y) as [z| |]; cbn [bind] in L; try discriminate L. injection L as <- <-.
  destruct (read_good false d jk _ y s1 R G) as (mg & lb & hb & db & E & L1 & L2 & L3 & Sh & L4). cbn [st_rest] in E.
  destruct (saved_form d m file Hd Hm S) as (h & -> & Hh & Nz & Ps & Ic & Dl).
  assert (F : exists t, (magic_and_version ++ le16 (length h) ++ h ++ concat (em_store m)) = mg ++ lb ++ hb ++ db ++ t /\ t <> []).
  { exists (st_rest s1 ++ skipn c (magic_and_version ++ le16 (length h) ++ h ++ concat (em_store m))). split.
    - rewrite <- (firstn_skipn c (magic_and_version ++ _)) at 1. rewrite E. now rewrite <- !app_assoc.
    - intros Z. apply app_eq_nil in Z. destruct Z as [_ Z]. apply (f_equal (@length _)) in Z. rewrite skipn_length in Z. cbn [length] in Z. lia. }
  destruct F as (t & F & Ht).
  assert (A : forall (a a' b b' : list ascii), a ++ b = a' ++ b' -> length a = length a' -> a = a' /\ b = b').
  { clear. induction a as [|x a IH]; intros [|x' a'] b b' H Hl; try discriminate Hl; [split; [reflexivity|exact H]|].
    cbn in H. injection H as -> H. injection Hl as Hl. destruct (IH _ _ _ H Hl) as [-> ->]. split; reflexivity. }
  apply A in F; [|now rewrite L1]. destruct F as [_ F]. apply A in F; [|now rewrite L2]. destruct F as [<- F].
  assert (Hlen : length hb = length h).
  { rewrite L3. cbv iota. apply le16_decode. exact Hh. }
  apply A in F; [|congruence]. destruct F as [<- F]. rewrite (cstr_nonzero' h Nz) in Sh. rewrite Ps in Sh. injection Sh as Sh.
  rewrite <- Sh, Ic, Nat2Z.id in L4. rewrite <- (app_nil_r (concat _)) in F. apply A in F; [|congruence]. destruct F as [_ F]. congruence.
Qed.

Section Model.
  Variable m : model_file.
  Variables fa fb fe : list ascii.
  Hypothesis Ha : valid_matrix F8 (mf_alpha m). Hypothesis Ha1 : em_cols (mf_alpha m) = 1. Hypothesis Ha2 : em_rowmajor (mf_alpha m) = false.
  Hypothesis Hb : valid_matrix F8 (mf_beta m). Hypothesis Hb2 : em_rowmajor (mf_beta m) = false.
  Hypothesis He : valid_matrix F8 (mf_eta m). Hypothesis He2 : em_rowmajor (mf_eta m) = false.
  Hypothesis Sa : save false F8 (mf_alpha m) = Ok fa.
  Hypothesis Sb : save false F8 (mf_beta m) = Ok fb.
  Hypothesis Se : save false F8 (mf_eta m) = Ok fe.

  Lemma load_alpha jk rest : load false F8 false true jk (mk_stream (fa ++ rest) true) = Ok (mf_alpha m, mk_stream rest true).
  Proof.
    destruct (matrix_roundtrip_same F8 (mf_alpha m) true jk rest I Ha (fun _ => Ha1)) as (f & S & L). rewrite Sa in S. injection S as <-. now rewrite Ha2 in L.
  Qed.
  Lemma load_beta jk rest : load false F8 false false jk (mk_stream (fb ++ rest) true) = Ok (mf_beta m, mk_stream rest true).
  Proof.
    destruct (matrix_roundtrip_same F8 (mf_beta m) false jk rest I Hb) as (f & S & L); [discriminate|]. rewrite Sb in S. injection S as <-. now rewrite Hb2 in L.
  Qed.
  Lemma cut_early c j1 j2 j3 r : c < length fa + length fb + Nat.min 24 (length fe) -> load_lda false j1 j2 j3 (mk_stream (firstn c (fa ++ fb ++ fe)) true) <> Ok r.
  Proof.
    intros Hc H. unfold load_lda in H. rewrite !firstn_app in H. destruct (Nat.lt_ge_cases c (length fa)) as [C1|C1].
    - replace (c - length fa) with 0 in H by lia. cbn [firstn Nat.sub app] in H. rewrite app_nil_r in H.
      destruct (load false F8 false true j1 _) as [[x s']| |] eqn:L; cbn [bind] in H; try discriminate H.
      apply (cut_bad F8 (mf_alpha m) fa) in L; try easy. rewrite load_bad in H by assumption. discriminate H.
    - rewrite firstn_all2 in H by lia. rewrite load_alpha in H. cbn [bind] in H. destruct (Nat.lt_ge_cases (c - length fa) (length fb)) as [C2|C2].
      + replace (c - length fa - length fb) with 0 in H by lia. rewrite firstn_O, app_nil_r in H.
        destruct (load false F8 false false j2 _) as [[x s']| |] eqn:L; cbn [bind] in H; try discriminate H.
        apply (cut_bad F8 (mf_beta m) fb) in L; try easy. rewrite load_bad in H by assumption. discriminate H.
      + rewrite (firstn_all2 fb) in H by lia. rewrite load_beta in H. cbn [bind] in H.
        destruct (short_throws F8 j3 (mk_stream (firstn (c - length fa - length fb) fe) true) I) as (e & E); [cbn [st_rest]; rewrite firstn_length; lia|].
        unfold load in H. rewrite E in H. discriminate H.
  Qed.
  (** the data of one of the first two arrays is incomplete: an exception *)
  Lemma data_cut_alpha c j1 j2 j3 : c < em_rows (mf_alpha m) * em_cols (mf_alpha m) * 8 ->
    exists p, fa = p ++ concat (em_store (mf_alpha m)) /\ load_lda false j1 j2 j3 (mk_stream (firstn (length p + c) (fa ++ fb ++ fe)) true) = Throw ERuntime.
  Proof.
    intros Hc. destruct (truncated_accepted F8 (mf_alpha m) j1 c I Ha Hc) as (p & x & S & Dl & L & Er & Ec & _). cbn [dsize] in Dl.
    rewrite Sa in S. injection S as ->. exists p. split; [reflexivity|]. rewrite <- app_assoc, firstn_app, firstn_all2 by lia.
    replace (length p + c - length p) with c by lia. rewrite firstn_app. replace (c - length (concat (em_store (mf_alpha m)))) with 0 by lia. rewrite firstn_O, app_nil_r.
    unfold load_lda. assert (L2 : load false F8 false true j1 (mk_stream (p ++ firstn c (concat (em_store (mf_alpha m)))) true) = Ok (x, mk_stream [] false)).
    { unfold load in L |- *. destruct (read_npy false F8 j1 _) as [[y s1]| |]; cbn [bind] in *; try discriminate L.
      destruct (to_matrix false false y) as [z| |] eqn:Tm; cbn [bind] in L; try discriminate L. injection L as -> ->.
      assert (Tv : to_matrix false true y = Ok x); [|now rewrite Tv].
      unfold to_matrix in Tm |- *. destruct (ni_shape y) as [|r0 rest0]; [discriminate Tm|]. destruct ((wrap32 r0 <? 0) || (conv_cols rest0 <? 0))%Z eqn:En; [discriminate Tm|].
      cbn [andb] in Tm. assert (C1 : conv_cols rest0 = 1%Z).
      { destruct (forallb _ _); [|discriminate Tm]. injection Tm as <-. cbn [em_cols] in Ec. rewrite Ha1 in Ec. apply orb_false_elim in En. destruct En as [_ En]. apply Z.ltb_ge in En. lia. }
      rewrite C1 in *. cbn [negb andb Z.eqb Pos.eqb]. exact Tm. }
    rewrite L2. cbn [bind]. now rewrite load_bad.
  Qed.
  Lemma data_cut_beta c j1 j2 j3 : c < em_rows (mf_beta m) * em_cols (mf_beta m) * 8 ->
    exists p, fb = p ++ concat (em_store (mf_beta m)) /\ load_lda false j1 j2 j3 (mk_stream (firstn (length fa + length p + c) (fa ++ fb ++ fe)) true) = Throw ERuntime.
  Proof.
    intros Hc. destruct (truncated_accepted F8 (mf_beta m) j2 c I Hb Hc) as (p & x & S & Dl & L & _). cbn [dsize] in Dl.
    rewrite Sb in S. injection S as ->. exists p. split; [reflexivity|]. rewrite firstn_app, firstn_all2 by lia.
    replace (length fa + length p + c - length fa) with (length p + c) by lia. rewrite <- app_assoc, firstn_app, (firstn_all2 p) by lia.
    replace (length p + c - length p) with c by lia. rewrite firstn_app. replace (c - length (concat (em_store (mf_beta m)))) with 0 by lia. rewrite firstn_O, app_nil_r.
    unfold load_lda. rewrite load_alpha. cbn [bind]. rewrite L. cbn [bind]. now rewrite load_bad.
  Qed.
  Lemma data_cut_eta c j1 j2 j3 : c < em_rows (mf_eta m) * em_cols (mf_eta m) * 8 ->
    exists p e, fe = p ++ concat (em_store (mf_eta m)) /\
      load_lda false j1 j2 j3 (mk_stream (firstn (length fa + length fb + length p + c) (fa ++ fb ++ fe)) true) = Ok (mk_model (mf_alpha m) (mf_beta m) e) /\
      em_rows e = em_rows (mf_eta m) /\ em_cols e = em_cols (mf_eta m) /\
      forall j i, j < em_rows e -> i < em_cols e ->
        em_get e j i = element 8 (firstn c (concat (em_store (mf_eta m))) ++ repeat zero (em_rows e * em_cols e * 8 - c)) (i * em_rows e + j).
  Proof.
    intros Hc. destruct (truncated_accepted F8 (mf_eta m) j3 c I He Hc) as (p & x & S & Dl & L & Er & Ec & G). cbn [dsize] in Dl, G.
    rewrite Se in S. injection S as ->. exists p, x. split; [reflexivity|]. split; [|split; [exact Er|split; [exact Ec|]]].
    - rewrite firstn_app, firstn_all2 by lia. replace (length fa + length fb + length p + c - length fa) with (length fb + length p + c) by lia.
      rewrite firstn_app, (firstn_all2 fb) by lia. replace (length fb + length p + c - length fb) with (length p + c) by lia.
      rewrite firstn_app, (firstn_all2 p) by lia. replace (length p + c - length p) with c by lia.
      unfold load_lda. rewrite load_alpha. cbn [bind]. rewrite load_beta. cbn [bind]. now rewrite L.
    - intros j i Hj Hi. rewrite Er, Ec in *. rewrite (G j i Hj Hi). unfold entry_index. now rewrite He2.
  Qed.
End Model.
