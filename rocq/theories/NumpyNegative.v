(** Headers whose extents are any integers a program can write down, negative ones included. *)
Require Import String Ascii ZArith NArith Bool List Lia.
Require Import Verif.Base Verif.NumpyModel Verif.NumpySpec Verif.NumpyProofs.
Import ListNotations.
Local Open Scope list_scope.

Lemma stoi_int l n a r : is_int_text l n -> is_digit a = false -> stoi (l ++ a :: r) = SVal n (length l).
Proof.
  intros [[H|(l' & -> & Hne & Hd & Hv)] Hn] Ha.
  - apply stoi_numeral; [exact H|lia|exact Ha].
  - unfold stoi. cbn [app skip_spaces].
    replace (is_space "-") with false by reflexivity. cbn [Ascii.eqb Bool.eqb].
    rewrite take_digits_app by assumption. rewrite Z.mul_0_l, Z.add_0_l, Hv.
    replace (length l' =? 0) with false by (destruct l'; [easy|reflexivity]).
    rewrite Z.opp_involutive.
    replace (- 2 ^ 31 <=? n)%Z with true by (symmetry; apply Z.leb_le; lia).
    replace (n <? 2 ^ 31)%Z with true by (symmetry; apply Z.ltb_lt; lia).
    reflexivity.
Qed.

Definition int_items (items : list (list byte * byte * byte)) (ns : list Z) : Prop :=
  Forall2 (fun it n => is_int_text (fst (fst it)) n /\ is_digit (snd (fst it)) = false) items ns.

Lemma parse_shape_ints items ns tail fuel :
  int_items items ns -> no_number tail -> length items <= fuel ->
  parse_shape fuel (shape_items items ++ tail) = Ok (map wrap64 ns).
Proof.
  intros H Ht. revert fuel. induction H as [|[[l a] b] n items ns (Hn & Hsep) H IH]; intros fuel Hf.
  - cbn. destruct fuel; [easy|]. cbn. now rewrite (stoi_no_number _ Ht).
  - destruct fuel as [|fuel]; [cbn in Hf; lia|]. cbn [shape_items parse_shape fst snd] in *.
    rewrite <- !app_assoc. cbn [app]. rewrite (stoi_int l n); [|easy|easy].
    unfold substr_from.
    replace (Nat.leb (length l + 2) (length (l ++ a :: b :: shape_items items ++ tail))) with true
      by (symmetry; apply Nat.leb_le; rewrite !app_length; cbn; lia).
    cbn [bind].
    replace (skipn (length l + 2) (l ++ a :: b :: shape_items items ++ tail))
      with (shape_items items ++ tail).
    2:{ rewrite skipn_app. rewrite skipn_all2 by lia.
        replace (length l + 2 - length l) with 2 by lia. reflexivity. }
    rewrite IH by (cbn in Hf; lia). reflexivity.
Qed.

Lemma parse_header_ints pre body items ns tail close c2 :
  body ++ close = shape_items items ++ tail ->
  int_items items ns -> no_number tail ->
  ~ In "("%char (body ++ close) ->
  close = ")"%char :: c2 -> ~ In ")"%char c2 ->
  length (shape_items items) <= length pre + 1 + length body ->
  parse_header_shape (pre ++ "("%char :: body ++ close) = Ok (map wrap64 ns).
Proof.
  intros E HF HT Hop Ec Hcl Hlen. unfold parse_header_shape.
  rewrite find_last_of_app by easy.
  replace (find_last_of ")"%char (pre ++ "("%char :: body ++ close))
    with (Some (length pre + 1 + length body)).
  2:{ rewrite Ec. symmetry.
      replace (pre ++ "("%char :: body ++ ")"%char :: c2)
        with ((pre ++ "("%char :: body) ++ ")"%char :: c2)
        by (rewrite <- !app_assoc; reflexivity).
      rewrite find_last_of_app by easy. f_equal. rewrite !app_length. cbn. lia. }
  unfold substr.
  replace (Nat.leb (length pre + 1) (length (pre ++ "("%char :: body ++ close))) with true
    by (symmetry; apply Nat.leb_le; rewrite app_length; cbn; lia).
  cbn [bind].
  replace (skipn (length pre + 1) (pre ++ "("%char :: body ++ close)) with (body ++ close).
  2:{ replace (length pre + 1) with (length (pre ++ ["("%char])) by (rewrite app_length; cbn; lia).
      replace (pre ++ "("%char :: body ++ close) with ((pre ++ ["("%char]) ++ (body ++ close))
        by (rewrite <- app_assoc; reflexivity).
      now rewrite skipn_exact. }
  rewrite E. rewrite firstn_app. rewrite firstn_all2 by lia.
  apply parse_shape_ints; auto using no_number_firstn.
  rewrite app_length. pose proof (shape_items_length items). lia.
Qed.

Lemma hform_ints o code fortran body close items ns tail c2 :
  body ++ close = shape_items items ++ tail ->
  int_items items ns -> no_number tail ->
  ~ In "("%char (body ++ close) ->
  close = ")"%char :: c2 -> ~ In ")"%char c2 ->
  length (shape_items items) <= length body + 10 ->
  parse_header_shape (hform o code fortran body close) = Ok (map wrap64 ns).
Proof.
  intros E HF HT Hop Ec Hc2 Hlen. unfold hform.
  match goal with |- parse_header_shape (?a ++ ?b ++ ?c ++ ?d ++ ?e ++ ?f ++ _) = _ =>
    replace (a ++ b ++ c ++ d ++ e ++ f ++ "("%char :: body ++ close)
      with ((a ++ b ++ c ++ d ++ e ++ f) ++ "("%char :: body ++ close)
      by (rewrite <- !app_assoc; reflexivity)
  end.
  apply (parse_header_ints _ body items ns tail close c2); try assumption.
  rewrite !app_length. cbn. lia.
Qed.

Definition ints (ns : list (list ascii)) (shape : list Z) : Prop := Forall2 is_int_text ns shape.

Lemma int_text_clean l n : is_int_text l n -> nonzero_bytes l /\ ~ In "("%char l.
Proof.
  intros [[H|(l' & -> & H)] _]; destruct (is_numeral_clean _ _ H) as [C1 C2]; [now split|].
  split; [constructor; [discriminate|exact C1]|]. intros [E|E]; [discriminate E|easy].
Qed.

Lemma int_tail_clean ns shape : ints ns shape ->
  nonzero_bytes (tuple_tail ns) /\ ~ In "("%char (tuple_tail ns).
Proof.
  induction 1 as [|l n ns shape Hn H (IH1 & IH2)]; [split; [constructor|easy]|].
  cbn [tuple_tail]. destruct (int_text_clean _ _ Hn) as [C1 C2].
  rewrite !nonzero_app, !in_app_iff. split; [|cbn; intuition discriminate].
  repeat split; auto. apply nonzero_dec; reflexivity.
Qed.

Lemma int_tuple_clean ns shape : ints ns shape ->
  nonzero_bytes (tuple_text ns) /\ ~ In "("%char (tuple_text ns).
Proof.
  intros H. destruct H as [|l n ns shape Hn H]; [split; [constructor|easy]|].
  destruct (int_text_clean _ _ Hn) as [C1 C2].
  destruct ns as [|l2 ns].
  - cbn [tuple_text]. rewrite nonzero_app, in_app_iff. split; [|cbn; intuition discriminate].
    split; auto. apply nonzero_dec; reflexivity.
  - change (tuple_text (l :: l2 :: ns)) with (l ++ tuple_tail (l2 :: ns)).
    destruct (int_tail_clean _ _ H) as [T1 T2].
    rewrite nonzero_app, in_app_iff. tauto.
Qed.

Lemma tuple_items_ints l n r shape :
  is_int_text l n -> ints r shape -> int_items (tuple_items l r) (n :: shape).
Proof.
  intros Hn H. revert l n Hn.
  induction H as [|l2 n2 r shape Hn2 H IH]; intros l n Hn; cbn [tuple_items].
  - constructor; [|constructor]. cbn. now split.
  - constructor; [cbn; now split|]. now apply IH.
Qed.

Lemma int_header_parse d o fortran ns shape pad :
  supported d -> o <> zero -> ints ns shape -> ns <> [] ->
  let h := numpy_header o (dtype_for_scalar d) fortran ns pad in
  nonzero_bytes h /\ (exists e, parse_dtype d h = Ok e)
  /\ (exists t, char_at h 34 = Ok t /\ Ascii.eqb t "T" = fortran)
  /\ parse_header_shape h = Ok (map wrap64 shape).
Proof.
  intros Hd Ho Hns Hne h. unfold h. rewrite numpy_header_hform.
  destruct (int_tuple_clean _ _ Hns) as (B1 & B2).
  destruct (supported_code d Hd) as (c1 & c2 & Ec & Hc). rewrite Ec.
  assert (Hnop : ~ In "("%char (tuple_text ns ++ text "), }" ++ repeat " "%char pad ++ ["010"%char])).
  { rewrite in_app_iff. intros [Hin|Hin]; [easy|]. rewrite in_app_iff in Hin.
    destruct Hin as [Hin|Hin]; [cbn in Hin; intuition discriminate|].
    revert Hin. apply blanks_no; discriminate. }
  assert (Hncl : ~ In ")"%char (text ", }" ++ repeat " "%char pad ++ ["010"%char])).
  { rewrite in_app_iff. intros [Hin|Hin]; [cbn in Hin; intuition discriminate|].
    revert Hin. apply blanks_no; discriminate. }
  split; [|split; [|split]].
  - apply hform_nonzero; auto.
    apply nonzero_app. split; [apply nonzero_dec; reflexivity|apply blanks_nonzero].
  - rewrite hform_dtype, Ec. destruct (list_eq_dec ascii_dec [c1; c2] [c1; c2]); [|easy]. eauto.
  - apply hform_char_at.
  - destruct Hns as [|l n ns shape Hn Hns]; [easy|].
    destruct ns as [|l2 ns].
    + inversion Hns; subst.
      eapply hform_ints with (items := [(l, ","%char, ")"%char)])
        (c2 := text ", }" ++ repeat " "%char pad ++ ["010"%char])
        (tail := text ", }" ++ repeat " "%char pad ++ ["010"%char]); try assumption; try reflexivity.
      * cbn [tuple_text shape_items]. rewrite <- !app_assoc. reflexivity.
      * constructor; [|constructor]. cbn [fst snd]. split; [exact Hn|reflexivity].
      * apply nn_other; (reflexivity || discriminate).
      * cbn. rewrite !app_length. cbn. lia.
    + eapply hform_ints with (items := tuple_items l (l2 :: ns))
        (c2 := text ", }" ++ repeat " "%char pad ++ ["010"%char])
        (tail := text " }" ++ repeat " "%char pad ++ ["010"%char]); try assumption; try reflexivity.
      * rewrite <- tuple_items_text. change (tuple_text (l :: l2 :: ns)) with (l ++ tuple_tail (l2 :: ns)).
        rewrite <- !app_assoc. reflexivity.
      * now apply tuple_items_ints.
      * apply nn_space; [reflexivity|]. apply nn_other; (reflexivity || discriminate).
      * rewrite tuple_items_length. change (tuple_text (l :: l2 :: ns)) with (l ++ tuple_tail (l2 :: ns)).
        lia.
Qed.

(** The int that counts the entries is the product modulo 2^32. *)
Lemma wrap32_mod z : ((wrap32 z) mod 2 ^ 32 = z mod 2 ^ 32)%Z.
Proof.
  unfold wrap32. rewrite Zminus_mod_idemp_l. f_equal. ring.
Qed.

Lemma wrap64_mod z : ((wrap64 z) mod 2 ^ 32 = z mod 2 ^ 32)%Z.
Proof.
  unfold wrap64. change (2 ^ 64)%Z with (2 ^ 32 * 2 ^ 32)%Z.
  rewrite Z.rem_mul_r by lia. rewrite Z.mul_comm, Z_mod_plus_full. now rewrite Z.mod_mod by lia.
Qed.

Lemma step_mod a x : ((wrap32 (wrap64 (wrap64 a * wrap64 x))) mod 2 ^ 32 = (a * x) mod 2 ^ 32)%Z.
Proof.
  rewrite wrap32_mod, wrap64_mod, Z.mul_mod, !wrap64_mod, <- Z.mul_mod by lia. reflexivity.
Qed.

Lemma count_mod l a :
  ((fold_left (fun n c => wrap32 (wrap64 (wrap64 n * c))) (map wrap64 l) a) mod 2 ^ 32 = (a * product l) mod 2 ^ 32)%Z.
Proof.
  revert a. induction l as [|x l IH]; intros a; cbn [map fold_left].
  - unfold product; cbn [fold_right]. now rewrite Z.mul_1_r.
  - rewrite IH. unfold product. cbn [fold_right]. fold (product l).
    rewrite Z.mul_mod, step_mod, <- Z.mul_mod by lia. f_equal. ring.
Qed.

Lemma wrap32_range z : (- 2 ^ 31 <= wrap32 z < 2 ^ 31)%Z.
Proof.
  unfold wrap32. pose proof (Z.mod_pos_bound (z + 2 ^ 31) (2 ^ 32)). lia.
Qed.

Lemma count_range l a :
  (- 2 ^ 31 <= a < 2 ^ 31)%Z ->
  (- 2 ^ 31 <= fold_left (fun n c => wrap32 (wrap64 (wrap64 n * c))) l a < 2 ^ 31)%Z.
Proof.
  revert a. induction l as [|x l IH]; intros a H; cbn [fold_left]; [exact H|].
  apply IH. apply wrap32_range.
Qed.

Lemma in_count_ints l :
  ((in_count (map wrap64 l) mod 2 ^ 32 = product l mod 2 ^ 32)
   /\ - 2 ^ 31 <= in_count (map wrap64 l) < 2 ^ 31)%Z.
Proof.
  unfold in_count. split; [rewrite count_mod; f_equal; ring|]. apply count_range. lia.
Qed.

Lemma in_count_negative l : (2 ^ 31 <= product l mod 2 ^ 32)%Z -> (in_count (map wrap64 l) < 0)%Z.
Proof.
  intros H. destruct (in_count_ints l) as [E B]. rewrite <- E in H.
  destruct (Z.lt_ge_cases (in_count (map wrap64 l)) 0) as [L|L]; [exact L|].
  rewrite Z.mod_small in H; lia.
Qed.

Lemma in_count_zero l : (product l mod 2 ^ 32 = 0)%Z -> in_count (map wrap64 l) = 0%Z.
Proof.
  intros H. destruct (in_count_ints l) as [E B]. rewrite <- E in H.
  apply Z.mod_divide in H; [|lia]. destruct H as [k Hk]. lia.
Qed.

Lemma read_npy_counts d jk h data shape :
  (N.of_nat (length h) < 65536)%N -> nonzero_bytes h ->
  (exists e, parse_dtype d h = Ok e) -> (exists t, char_at h 34 = Ok t) ->
  parse_header_shape h = Ok shape ->
  ((in_count shape < 0)%Z -> read_npy false d jk (mk_stream (npy_file h data) true) = Throw ELength) /\
  ((in_count shape = 0)%Z -> read_npy false d jk (mk_stream (npy_file h data) true) = UB).
Proof.
  intros Hh Hnz (e & Hd) (t & Ht) Hs. unfold npy_file. rewrite <- le16_spec by assumption.
  assert (R : forall g, (let* (x, s) := read_npy false d jk (mk_stream (npy_magic "001" "000" ++ le16 (length h) ++ h ++ data) true) in g x s)
    = (let* (x, s) := (let n := in_count shape in if (n <? 0)%Z then @Throw (npin * stream) ELength else if (n =? 0)%Z then UB else
        read_npy false d jk (mk_stream (npy_magic "001" "000" ++ le16 (length h) ++ h ++ data) true)) in g x s) :> outcome (npin * stream)).
  { intros g. unfold read_npy.
    rewrite (sread_app 8 (npy_magic "001" "000")) by easy.
    cbn [npy_magic nth signed_char length Nat.eqb].
    replace (signed_char "001" >? 1)%Z with false by reflexivity.
    rewrite (sread_app 2 (le16 (length h))) by easy.
    replace (nth 0 (le16 (length h)) (jk_len0 jk)) with (nth 0 (le16 (length h)) zero) by reflexivity.
    replace (nth 1 (le16 (length h)) (jk_len1 jk)) with (nth 1 (le16 (length h)) zero) by reflexivity.
    cbv zeta. rewrite le16_decode by easy.
    rewrite (sread_app (length h) h) by easy.
    rewrite Nat.sub_diag. cbn [repeat]. rewrite app_nil_r, cstr_nonzero' by easy.
    rewrite Hd. cbn [bind]. rewrite Ht. cbn [bind]. rewrite Hs. cbn [bind].
    destruct (in_count shape <? 0)%Z eqn:A; [reflexivity|].
    destruct (in_count shape =? 0)%Z eqn:B; reflexivity. }
  specialize (R (fun x s => Ok (x, s))). cbv zeta in R.
  set (r := read_npy false d jk _) in *. clearbody r.
  split; intros H.
  - replace (in_count shape <? 0)%Z with true in R by (symmetry; apply Z.ltb_lt; lia).
    destruct r as [[x s]|x|]; cbn in R; congruence.
  - rewrite H in R. cbn in R. destruct r as [[x s]|x|]; cbn in R; congruence.
Qed.

Lemma load_counts d o fortran ns shape pad data rm vec jk :
  supported d -> o <> zero -> ints ns shape -> ns <> [] ->
  (N.of_nat (length (numpy_header o (dtype_for_scalar d) fortran ns pad)) < 65536)%N ->
  ((2 ^ 31 <= product shape mod 2 ^ 32)%Z ->
   load false d rm vec jk (mk_stream (npy_file (numpy_header o (dtype_for_scalar d) fortran ns pad) data) true) = Throw ELength) /\
  ((product shape mod 2 ^ 32 = 0)%Z ->
   load false d rm vec jk (mk_stream (npy_file (numpy_header o (dtype_for_scalar d) fortran ns pad) data) true) = UB).
Proof.
  intros Hd Ho Hns Hne Hh.
  destruct (int_header_parse d o fortran ns shape pad Hd Ho Hns Hne) as (N1 & N2 & (t & T & _) & N3).
  destruct (read_npy_counts d jk _ data _ Hh N1 N2 (ex_intro _ t T) N3) as [A B].
  unfold load. split; intros H.
  - rewrite A by (now apply in_count_negative). reflexivity.
  - rewrite B by (now apply in_count_zero). reflexivity.
Qed.
