(** C47. *)
From Coq Require Import String List Bool ZArith Lia Permutation Sorted DecimalString DecimalZ.
From Verif Require Import PyBase ConfigModel.
Import ListNotations.
Open Scope string_scope.
Open Scope list_scope.

(** ** Specification *)
(** The name a key has in the file. *)
Inductive named : key -> key -> Prop :=
| named_str : forall s, named (KStr s) (KStr s)
| named_int : forall z, named (KInt z) (KStr (NilZero.string_of_int (Z.to_int z))).
(** What comes back for a value: sequences as lists, unknown objects as None, dictionaries with the
    same entries (in some order) under the names of their keys. *)
Inductive restored : pyval -> pyval -> Prop :=
| res_none : restored PNone PNone
| res_bool : forall b, restored (PBool b) (PBool b)
| res_num : forall z, restored (PNum z) (PNum z)
| res_str : forall s, restored (PStr s) (PStr s)
| res_obj : forall i, restored (PObj i) PNone
| res_list : forall l l', Forall2 restored l l' -> restored (PList l) (PList l')
| res_tuple : forall l l', Forall2 restored l l' -> restored (PTuple l) (PList l')
| res_array : forall l l', Forall2 restored l l' -> restored (PArray l) (PList l')
| res_dict : forall d d1 d', Permutation d d1 ->
    Forall2 (fun a b => named (fst a) (fst b) /\ restored (snd a) (snd b)) d1 d' -> restored (PDict d) (PDict d').

(** Values without tuples, arrays, objects and dictionaries, and values whose dictionaries have only
    strings as keys. *)
Fixpoint plain (v : pyval) : bool :=
  match v with
  | PNone | PBool _ | PNum _ | PStr _ => true
  | PList l => forallb plain l
  | PObj _ | PTuple _ | PArray _ | PDict _ => false
  end.
Definition is_str (k : key) : bool := match k with KStr _ => true | _ => false end.
Fixpoint string_keys (v : pyval) : bool :=
  match v with
  | PNone | PBool _ | PNum _ | PStr _ | PObj _ => true
  | PList l | PTuple l | PArray l => forallb string_keys l
  | PDict d => forallb (fun e => is_str (fst e) && string_keys (snd e)) d
  end.

(** ** Proofs *)
Section Ind.
  Variable P : pyval -> Prop.
  Hypotheses (H0 : P PNone) (H1 : forall b, P (PBool b)) (H2 : forall z, P (PNum z)) (H3 : forall s, P (PStr s))
    (H4 : forall i, P (PObj i)) (H5 : forall l, Forall P l -> P (PList l)) (H6 : forall l, Forall P l -> P (PTuple l))
    (H7 : forall l, Forall P l -> P (PArray l)) (H8 : forall d, Forall (fun e => P (snd e)) d -> P (PDict d)).
  Fixpoint pyval_ind' (v : pyval) : P v :=
    let go := fix go l : Forall P l := match l with [] => Forall_nil P | x :: r => Forall_cons x (pyval_ind' x) (go r) end in
    match v with
    | PNone => H0 | PBool b => H1 b | PNum z => H2 z | PStr s => H3 s | PObj i => H4 i
    | PList l => H5 l (go l) | PTuple l => H6 l (go l) | PArray l => H7 l (go l)
    | PDict d => H8 d ((fix god (d : list (key * pyval)) : Forall (fun e => P (snd e)) d := match d with
        | [] => Forall_nil _ | x :: r => Forall_cons x (pyval_ind' (snd x)) (god r) end) d)
    end.
End Ind.

Lemma key_eqb_spec : forall a b, reflect (a = b) (key_eqb a b).
Proof.
  intros [x|x|x] [y|y|y]; cbn [key_eqb]; try (constructor; congruence).
  - destruct (String.eqb_spec x y); constructor; congruence.
  - destruct (Z.eqb_spec x y); constructor; congruence.
  - destruct (Nat.eqb_spec x y); constructor; congruence.
Qed.

(** The loops inside encode. *)
Fixpoint encode_list (l : list pyval) : result (list jval) :=
  match l with
  | [] => Ok []
  | x :: r => rbind (encode x) (fun y => rbind (encode_list r) (fun ys => Ok (y :: ys)))
  end.
Fixpoint encode_items (d : list (key * pyval)) : result (list (key * jval)) :=
  match d with
  | [] => Ok []
  | (k, x) :: r => rbind (encode x) (fun y => rbind (encode_items r) (fun ys => Ok ((k, y) :: ys)))
  end.
Fixpoint encode_keys (l : list (key * jval)) : result (list (string * jval)) :=
  match l with
  | [] => Ok []
  | (k, y) :: r => rbind (key_text k) (fun t => rbind (encode_keys r) (fun ts => Ok ((t, y) :: ts)))
  end.
Lemma encode_seq : forall l, encode (PList l) = rbind (encode_list l) (fun ys => Ok (JList ys)) /\
  encode (PTuple l) = rbind (encode_list l) (fun ys => Ok (JList ys)) /\
  encode (PArray l) = rbind (encode_list l) (fun ys => Ok (JList ys)).
Proof. intro l. split; [|split]; reflexivity. Qed.
Lemma encode_dict : forall d, encode (PDict d) =
  rbind (encode_items d) (fun ys => rbind (sort_items ys) (fun s => rbind (encode_keys s) (fun ts => Ok (JDict ts)))).
Proof. reflexivity. Qed.

Lemma insert_perm : forall A (e : key * A) l l', insert_item e l = Ok l' -> Permutation (e :: l) l'.
Proof.
  intros A e. induction l as [|f l IH]; intros l' H; cbn [insert_item] in H.
  - assert (l' = [e]) as -> by congruence. apply Permutation_refl.
  - destruct (key_leb (fst e) (fst f)) as [[|]|]; [|destruct (insert_item e l) as [r|] eqn:E; cbn [rbind] in H|congruence].
    + assert (l' = e :: f :: l) as -> by congruence. apply Permutation_refl.
    + assert (l' = f :: r) as -> by congruence. eapply perm_trans; [apply perm_swap|]. constructor. apply IH. reflexivity.
    + congruence.
Qed.
Lemma sort_perm : forall A (l l' : list (key * A)), sort_items l = Ok l' -> Permutation l l'.
Proof.
  intro A. induction l as [|e l IH]; intros l' H; cbn [sort_items] in H.
  - assert (l' = []) as -> by congruence. apply Permutation_refl.
  - destruct (sort_items l) as [r|] eqn:E; cbn [rbind] in H; [|congruence].
    eapply perm_trans; [constructor; apply IH; reflexivity | apply insert_perm; exact H].
Qed.
Definition le_key {A} (a b : key * A) : Prop := key_leb (fst a) (fst b) = Some true.
Lemma key_leb_total : forall a b, key_leb a b = Some false -> key_leb b a = Some true.
Proof.
  intros [x|x|x] [y|y|y] H; cbn [key_leb] in *; try congruence.
  - destruct (String.leb_total x y) as [T|T]; [congruence | rewrite T; reflexivity].
  - f_equal. apply Z.leb_le. assert ((x <=? y)%Z = false) as L by congruence. apply Z.leb_gt in L. lia.
Qed.
Lemma insert_sorted : forall A (e : key * A) l l', insert_item e l = Ok l' -> Sorted le_key l -> Sorted le_key l'.
Proof.
  intros A e. induction l as [|f l IH]; intros l' H S; cbn [insert_item] in H.
  - assert (l' = [e]) as -> by congruence. repeat constructor.
  - destruct (key_leb (fst e) (fst f)) as [[|]|] eqn:L; [|destruct (insert_item e l) as [r|] eqn:E; cbn [rbind] in H|congruence].
    + assert (l' = e :: f :: l) as -> by congruence. constructor; [exact S|]. constructor. exact L.
    + assert (l' = f :: r) as -> by congruence. inversion S as [|? ? S' HD]; subst.
      constructor; [apply IH; [reflexivity | exact S']|].
      destruct l as [|g l]; cbn [insert_item] in E.
      * assert (r = [e]) as -> by congruence. constructor. apply key_leb_total. exact L.
      * destruct (key_leb (fst e) (fst g)) as [[|]|]; [|destruct (insert_item e l) as [r'|]; cbn [rbind] in E|congruence].
        -- assert (r = e :: g :: l) as -> by congruence. constructor. apply key_leb_total. exact L.
        -- assert (r = g :: r') as -> by congruence. constructor. inversion HD. assumption.
        -- congruence.
    + congruence.
Qed.
Lemma sort_sorted : forall A (l l' : list (key * A)), sort_items l = Ok l' -> Sorted le_key l'.
Proof.
  intro A. induction l as [|e l IH]; intros l' H; cbn [sort_items] in H.
  - assert (l' = []) as -> by congruence. constructor.
  - destruct (sort_items l) as [r|] eqn:E; cbn [rbind] in H; [|congruence]. eapply insert_sorted; [exact H | apply IH; reflexivity].
Qed.
Lemma sort_strings : forall A (l : list (key * A)), forallb (fun e => is_str (fst e)) l = true ->
  exists l', sort_items l = Ok l' /\ forallb (fun e => is_str (fst e)) l' = true.
Proof.
  intro A. induction l as [|e l IH]; intro H; [exists []; split; reflexivity|].
  cbn [forallb] in H. apply andb_true_iff in H. destruct H as [E H]. destruct (IH H) as [r [R S]].
  cbn [sort_items]. rewrite R. cbn [rbind]. clear R IH H. induction r as [|f r IH].
  - exists [e]. cbn. rewrite E. split; reflexivity.
  - cbn [forallb] in S. apply andb_true_iff in S. destruct S as [F S]. cbn [insert_item].
    destruct e as [[x|x|x] v], f as [[y|y|y] u]; try discriminate. cbn [key_leb fst].
    destruct (String.leb x y); [eexists; split; [reflexivity|]; cbn [forallb fst is_str andb]; exact S|].
    destruct (IH S) as [r' [R' S']]. rewrite R'. cbn [rbind]. eexists. split; [reflexivity|]. cbn [forallb fst is_str andb]. exact S'.
Qed.

Lemma encode_keys_named : forall l ts, encode_keys l = Ok ts ->
  Forall2 (fun a b => named (fst a) (KStr (fst b)) /\ snd a = snd b) l ts.
Proof.
  induction l as [|[k y] l IH]; intros ts H; cbn [encode_keys] in H.
  - assert (ts = []) as -> by congruence. constructor.
  - destruct (key_text k) as [t|] eqn:K; cbn [rbind] in H; [|congruence].
    destruct (encode_keys l) as [r|] eqn:E; cbn [rbind] in H; [|congruence].
    assert (ts = (t, y) :: r) as -> by congruence. constructor; [|apply IH; reflexivity]. cbn [fst snd]. split; [|reflexivity].
    destruct k; cbn [key_text] in K; [assert (s = t) as -> by congruence; constructor| |congruence].
    assert (t = NilZero.string_of_int (Z.to_int z)) as -> by congruence. constructor.
Qed.

Lemma perm_forall2 : forall A B (R : A -> B -> Prop) l l1, Permutation l l1 -> forall m, Forall2 R m l ->
  exists m1, Permutation m m1 /\ Forall2 R m1 l1.
Proof.
  intros A B R l l1 P. induction P as [|x l l' P IH|x y l|l l' l'' P1 IH1 P2 IH2]; intros m F.
  - exists m. split; [apply Permutation_refl | exact F].
  - inversion F as [|a ? m' ? R1 F']; subst. destruct (IH _ F') as [m1 [Q G]]. exists (a :: m1). split; constructor; assumption.
  - inversion F as [|a ? m' ? R1 F']; subst. inversion F' as [|b ? m'' ? R2 F'']; subst.
    exists (b :: a :: m''). split; [apply perm_swap | repeat constructor; assumption].
  - destruct (IH1 _ F) as [m1 [Q1 G1]]. destruct (IH2 _ G1) as [m2 [Q2 G2]]. exists m2. split; [eapply perm_trans; eassumption | exact G2].
Qed.

Lemma encode_restored : forall v j, encode v = Ok j -> restored v (decode j).
Proof.
  assert (forall l, Forall (fun v => forall j, encode v = Ok j -> restored v (decode j)) l ->
    forall ys, encode_list l = Ok ys -> Forall2 restored l (map decode ys)) as L.
  { induction l as [|x l IH]; intros F ys H; cbn [encode_list] in H.
    - assert (ys = []) as -> by congruence. constructor.
    - inversion F as [|? ? HX F']; subst. destruct (encode x) as [y|]; cbn [rbind] in H; [|congruence].
      destruct (encode_list l) as [r|]; cbn [rbind] in H; [|congruence].
      assert (ys = y :: r) as -> by congruence. cbn [map]. constructor; [apply HX; reflexivity | apply IH; [exact F' | reflexivity]]. }
  induction v using pyval_ind'; intros j E.
  - cbn in E. assert (j = JNull) as -> by congruence. constructor.
  - cbn in E. assert (j = JBool b) as -> by congruence. constructor.
  - cbn in E. assert (j = JNum z) as -> by congruence. constructor.
  - cbn in E. assert (j = JStr s) as -> by congruence. constructor.
  - cbn in E. assert (j = JNull) as -> by congruence. constructor.
  - rewrite (proj1 (encode_seq l)) in E. destruct (encode_list l) as [ys|] eqn:EL; cbn [rbind] in E; [|congruence].
    assert (j = JList ys) as -> by congruence. constructor. apply L; assumption.
  - rewrite (proj1 (proj2 (encode_seq l))) in E. destruct (encode_list l) as [ys|] eqn:EL; cbn [rbind] in E; [|congruence].
    assert (j = JList ys) as -> by congruence. constructor. apply L; assumption.
  - rewrite (proj2 (proj2 (encode_seq l))) in E. destruct (encode_list l) as [ys|] eqn:EL; cbn [rbind] in E; [|congruence].
    assert (j = JList ys) as -> by congruence. constructor. apply L; assumption.
  - rewrite encode_dict in E. destruct (encode_items d) as [ys|] eqn:EI; cbn [rbind] in E; [|congruence].
    destruct (sort_items ys) as [s|] eqn:ES; cbn [rbind] in E; [|congruence].
    destruct (encode_keys s) as [ts|] eqn:EK; cbn [rbind] in E; [|congruence].
    assert (j = JDict ts) as -> by congruence.
    assert (Forall2 (fun a b => fst a = fst b /\ restored (snd a) (decode (snd b))) d ys) as FI.
    { clear - H EI. revert ys EI. induction d as [|[k x] d IH]; intros ys EI; cbn [encode_items] in EI.
      - assert (ys = []) as -> by congruence. constructor.
      - inversion H as [|? ? HX H']; subst. cbn [snd] in HX. destruct (encode x) as [y|]; cbn [rbind] in EI; [|congruence].
        destruct (encode_items d) as [r|]; cbn [rbind] in EI; [|congruence].
        assert (ys = (k, y) :: r) as -> by congruence. constructor; [cbn [fst snd]; split; [reflexivity | apply HX; reflexivity] | apply IH; [exact H' | reflexivity]]. }
    destruct (perm_forall2 _ _ _ _ _ (sort_perm _ _ _ ES) _ FI) as [d1 [P F1]].
    cbn [decode]. apply (res_dict d d1); [exact P|]. apply encode_keys_named in EK.
    clear - F1 EK. revert d1 F1. induction EK as [|a b s ts [N V] EK IH]; intros d1 F1; inversion F1 as [|x ? d1' ? [X1 X2] F1']; subst; cbn [map]; constructor.
    + cbn [fst snd]. rewrite X1, <- V. split; assumption.
    + apply IH. exact F1'.
Qed.

Lemma encode_total : forall v, string_keys v = true -> exists j, encode v = Ok j.
Proof.
  assert (forall l, Forall (fun v => string_keys v = true -> exists j, encode v = Ok j) l -> forallb string_keys l = true ->
    exists ys, encode_list l = Ok ys) as L.
  { induction l as [|x l IH]; intros F S; [exists []; reflexivity|]. inversion F as [|? ? HX F']; subst.
    cbn [forallb] in S. apply andb_true_iff in S. destruct S as [S1 S2]. destruct (HX S1) as [y Y]. destruct (IH F' S2) as [r R].
    exists (y :: r). cbn [encode_list]. rewrite Y. cbn [rbind]. rewrite R. reflexivity. }
  induction v using pyval_ind'; intro S; try (eexists; reflexivity).
  - destruct (L l H S) as [ys E]. rewrite (proj1 (encode_seq l)), E. eexists. reflexivity.
  - destruct (L l H S) as [ys E]. rewrite (proj1 (proj2 (encode_seq l))), E. eexists. reflexivity.
  - destruct (L l H S) as [ys E]. rewrite (proj2 (proj2 (encode_seq l))), E. eexists. reflexivity.
  - rewrite encode_dict. cbn [string_keys] in S.
    assert (exists ys, encode_items d = Ok ys /\ forallb (fun e => is_str (fst e)) ys = true) as [ys [E Y]].
    { induction d as [|[k x] d IH]; [exists []; split; reflexivity|]. inversion H as [|? ? HX H']; subst.
      cbn [forallb fst snd] in S. apply andb_true_iff in S. destruct S as [S1 S2]. apply andb_true_iff in S1. destruct S1 as [K S1].
      destruct (HX S1) as [y E]. destruct (IH H' S2) as [r [R Y]]. exists ((k, y) :: r). cbn [encode_items].
      cbn [snd] in E. rewrite E. cbn [rbind]. rewrite R. split; [reflexivity|]. cbn [forallb fst]. rewrite K. exact Y. }
    rewrite E. cbn [rbind]. destruct (sort_strings _ ys Y) as [s [ES SS]]. rewrite ES. cbn [rbind].
    assert (exists ts, encode_keys s = Ok ts) as [ts ET].
    { clear - SS. induction s as [|[k y] s IH]; [exists []; reflexivity|]. cbn [forallb fst] in SS. apply andb_true_iff in SS.
      destruct SS as [K SS]. destruct (IH SS) as [ts T]. destruct k; try discriminate. eexists. cbn [encode_keys key_text rbind]. rewrite T. reflexivity. }
    rewrite ET. eexists. reflexivity.
Qed.

(** C47: values made of None, booleans, numbers, strings and lists come back unchanged. *)
Theorem restored_plain : forall v v', plain v = true -> restored v v' -> v' = v.
Proof.
  induction v using pyval_ind'; intros v' P R; inversion R; subst; try reflexivity; try discriminate.
  f_equal. cbn [plain] in P. rewrite forallb_forall in P. match goal with F : Forall2 restored _ _ |- _ => rename F into F2 end.
  clear R. revert l' F2. induction l as [|x l IH]; intros l' F2; inversion F2 as [|? y ? r RX F2']; subst; [reflexivity|].
  inversion H as [|? ? HX H']; subst. f_equal; [apply HX; [apply P; left; reflexivity | exact RX]|].
  apply IH; [exact H' | intros; apply P; right; assumption | exact F2'].
Qed.
Print Assumptions restored_plain.

(** Names of keys determine the keys that can be sorted together. *)
Lemma show_inj : forall a b, NilZero.string_of_int (Z.to_int a) = NilZero.string_of_int (Z.to_int b) -> a = b.
Proof.
  assert (forall z, Z.to_int z <> Decimal.Pos Decimal.Nil /\ Z.to_int z <> Decimal.Neg Decimal.Nil) as N.
  { intros [|p|p]; split; try discriminate; unfold Z.to_int; intro H.
    - assert (Pos.to_uint p = Decimal.Nil) as E by congruence. exact (DecimalPos.Unsigned.to_uint_nonnil p E).
    - assert (Pos.to_uint p = Decimal.Nil) as E by congruence. exact (DecimalPos.Unsigned.to_uint_nonnil p E). }
  intros a b H. pose proof (NilZero.isi _ (proj1 (N a)) (proj2 (N a))) as A.
  pose proof (NilZero.isi _ (proj1 (N b)) (proj2 (N b))) as B. rewrite H, B in A.
  assert (Z.to_int b = Z.to_int a) as E by congruence.
  rewrite <- (DecimalZ.of_to a), <- (DecimalZ.of_to b). congruence.
Qed.

Definition kind (k : key) : nat := match k with KStr _ => 0 | KInt _ => 1 | KOther _ => 2 end.
Lemma sorted_kind : forall A (l : list (key * A)) e, Sorted le_key (e :: l) -> Forall (fun f => kind (fst f) = kind (fst e)) l.
Proof.
  intro A. induction l as [|f l IH]; intros e S; [constructor|]. inversion S as [|? ? S' HD]; subst. inversion HD as [|? ? L]; subst.
  assert (kind (fst f) = kind (fst e)) as K.
  { unfold le_key in L. destruct (fst e), (fst f); cbn [key_leb] in L; try congruence; reflexivity. }
  constructor; [exact K|]. rewrite <- K. apply IH. exact S'.
Qed.

Lemma named_inj : forall k k' n, named k n -> named k' n -> kind k = kind k' -> k = k'.
Proof.
  intros k k' n H H' K. inversion H as [s E1 E2|z E1 E2]; inversion H' as [s' E1' E2'|z' E1' E2']; subst; try discriminate.
  - congruence.
  - f_equal. apply show_inj. congruence.
Qed.

Lemma saved_items : forall d j, NoDup (map fst d) -> encode (PDict d) = Ok j ->
  exists d1 new, decode j = PDict new /\ Permutation d d1 /\ NoDup (map fst new) /\
    Forall2 (fun a b => named (fst a) (fst b) /\ restored (snd a) (snd b)) d1 new.
Proof.
  intros d j ND E. pose proof (encode_restored _ _ E) as R. rewrite encode_dict in E.
  destruct (encode_items d) as [ys|] eqn:EI; cbn [rbind] in E; [|congruence].
  destruct (sort_items ys) as [s|] eqn:ES; cbn [rbind] in E; [|congruence].
  destruct (encode_keys s) as [ts|] eqn:EK; cbn [rbind] in E; [|congruence].
  assert (j = JDict ts) as -> by congruence. cbn [decode] in R.
  inversion R as [| | | | | | | |d0 d1 d' P F E1 E2]. exists d1, d'. subst d0. split; [cbn [decode]; congruence|]. rewrite <- E2 in F. split; [exact P|]. split; [|exact F].
  assert (map fst ys = map fst d) as KD.
  { clear - EI. revert ys EI. induction d as [|[k x] d IH]; intros ys EI; cbn [encode_items] in EI.
    - assert (ys = []) as -> by congruence. reflexivity.
    - destruct (encode x); cbn [rbind] in EI; [|congruence]. destruct (encode_items d) as [r|]; cbn [rbind] in EI; [|congruence].
      assert (ys = (k, a) :: r) as -> by congruence. cbn [map fst]. f_equal. apply IH. reflexivity. }
  assert (NoDup (map fst s)) as NS.
  { eapply Permutation_NoDup; [apply Permutation_map; apply (sort_perm _ _ _ ES)|]. rewrite KD. exact ND. }
  pose proof (sort_sorted _ _ _ ES) as SS. apply encode_keys_named in EK.
  assert (d' = map (fun e => (KStr (fst e), decode (snd e))) ts) as -> by congruence.
  rewrite map_map. cbn [fst].
  assert (forall t, In t ts -> exists a, In a s /\ named (fst a) (KStr (fst t))) as W.
  { clear - EK. induction EK as [|a b s ts [N V] EK IH]; intros t T; [destruct T|]. destruct T as [<- |T].
    - exists a. split; [left; reflexivity | exact N].
    - destruct (IH t T) as [a' [I M]]. exists a'. split; [right; exact I | exact M]. }
  clear - EK NS SS. induction EK as [|a b s ts [N V] EK IH]; [constructor|]. cbn [map] in *.
  inversion NS as [|? ? NA NS']; subst. pose proof (sorted_kind _ _ _ SS) as SK. inversion SS as [|? ? SS' _]; subst.
  constructor; [|apply IH; assumption].
  rewrite in_map_iff. intros [t [T I]].
  assert (exists a', In a' s /\ named (fst a') (KStr (fst t))) as [a' [A' N']].
  { clear - EK I. induction EK as [|x y s ts [N V] EK IH]; [destruct I|]. destruct I as [<- |I].
    - exists x. split; [left; reflexivity | exact N].
    - destruct (IH I) as [x' [? ?]]. exists x'. split; [right|]; assumption. }
  rewrite Forall_forall in SK. specialize (SK _ A'). apply NA. rewrite in_map_iff. exists a'. split; [|exact A'].
  rewrite T in N'. exact (named_inj _ _ _ N' N SK).
Qed.

Lemma last_write_nodup : forall (l : list (key * pyval)) k v, NoDup (map fst l) ->
  (last_write key_eqb l k = Some v <-> In (k, v) l).
Proof.
  induction l as [|[a x] l IH]; intros k v ND; [cbn; split; [congruence | tauto]|].
  inversion ND as [|? ? N ND']; subst. rewrite last_write_cons. cbn [In].
  destruct (last_write key_eqb l k) as [u|] eqn:E.
  - split.
    + intro H. right. apply IH; [exact ND' | congruence].
    + intros [H|H].
      * exfalso. apply N. assert (a = k) as -> by congruence. apply (IH k u ND') in E. apply (in_map fst) in E. exact E.
      * apply (IH k v ND') in H. congruence.
  - destruct (key_eqb_spec k a) as [-> |NE]; split.
    + intro H. left. congruence.
    + intros [H|H]; [congruence|]. apply (IH a v ND') in H. congruence.
    + congruence.
    + intros [H|H]; [congruence|]. apply (IH k v ND') in H. congruence.
Qed.

(** C47: saving and loading into an empty configuration restores the entries: the same ones, each
    under the name of its key. *)
Theorem save_load : forall c p fs fs', NoDup (map fst (c_entries c)) ->
  save c (Some p) true fs = (fs', Ok tt) ->
  exists c', new_config (Some p) fs' = (c', Ok tt) /\ c_path c' = Some p /\
    (forall k v, dget key_eqb (c_entries c) k = Some v ->
       exists k' v', named k k' /\ restored v v' /\ dget key_eqb (c_entries c') k' = Some v') /\
    (forall k' v', dget key_eqb (c_entries c') k' = Some v' ->
       exists k v, named k k' /\ restored v v' /\ dget key_eqb (c_entries c) k = Some v).
Proof.
  intros c p fs fs' ND S. unfold save in S. rewrite andb_false_r in S.
  destruct (encode (PDict (c_entries c))) as [j|] eqn:E; [|congruence].
  assert (fs' = dset String.eqb fs p (Text j)) as -> by congruence.
  destruct (saved_items _ _ ND E) as [d1 [new [D [P [NN F]]]]].
  exists (Config (dset_all key_eqb [] new) (Some p) []).
  unfold new_config. unfold dmem, load. rewrite (dget_dset_same String.eqb_spec), D. cbn [negb andb c_entries c_path c_attrs].
  assert (existsb (fun e : key * pyval => dmem key_eqb (@nil (key * pyval)) (fst e)) new = false) as X
    by (clear D NN F; induction new as [|e new IH]; [reflexivity | exact IH]).
  rewrite X. split; [reflexivity|]. split; [reflexivity|].
  assert (forall k v, dget key_eqb (dset_all key_eqb [] new) k = Some v <-> In (k, v) new) as G.
  { intros k v. rewrite (dget_dset_all key_eqb_spec). rewrite <- (last_write_nodup _ k v NN).
    destruct (last_write key_eqb new k); [tauto|]. cbn [dget]. tauto. }
  assert (NoDup (dkeys (c_entries c))) as ND' by exact ND.
  split.
  - intros k v H. apply (dget_Some_in key_eqb_spec) in H. apply (Permutation_in _ P) in H.
    clear - F H G. assert (exists b, In b new /\ named k (fst b) /\ restored v (snd b)) as [b [B [N R]]].
    { clear G. induction F as [|a b d1 new [N R] F IH]; [destruct H|]. destruct H as [-> |H].
      - exists b. split; [left; reflexivity | split; [exact N | exact R]].
      - destruct (IH H) as [b' [? ?]]. exists b'. split; [right|]; assumption. }
    exists (fst b), (snd b). split; [exact N|]. split; [exact R|]. apply G. destruct b. exact B.
  - intros k' v' H. apply G in H. assert (exists a, In a d1 /\ named (fst a) k' /\ restored (snd a) v') as [a [A [N R]]].
    { clear - F H. induction F as [|a b d1 new [N R] F IH]; [destruct H|]. destruct H as [-> |H].
      - exists a. split; [left; reflexivity | split; [exact N | exact R]].
      - destruct (IH H) as [b' [? ?]]. exists b'. split; [right|]; assumption. }
    exists (fst a), (snd a). split; [exact N|]. split; [exact R|]. apply (dget_in_nodup key_eqb_spec); [exact ND'|].
    apply (Permutation_in _ (Permutation_sym P)) in A. destruct a. exact A.
Qed.
Print Assumptions save_load.

(** C47: saving only ever changes the named file; it is refused without a path or for an existing
    file that may not be overwritten, and works for all entries whose dictionaries have string keys. *)
Theorem save_exact : forall c path overwrite fs, let (fs', r) := save c path overwrite fs in
  match (match path with Some p => Some p | None => c_path c end) with
  | None => fs' = fs /\ r = Raise ValueError
  | Some p =>
      (forall n, n <> p -> dget String.eqb fs' n = dget String.eqb fs n) /\
      (if negb overwrite && dmem String.eqb fs p then fs' = fs /\ r = Raise PermissionError
       else (string_keys (PDict (c_entries c)) = true -> r = Ok tt) /\
            (r = Ok tt -> exists j, dget String.eqb fs' p = Some (Text j) /\ restored (PDict (c_entries c)) (decode j)))
  end.
Proof.
  intros c path overwrite fs. unfold save. destruct (match path with Some p => Some p | None => c_path c end) as [p|]; [|split; reflexivity].
  rewrite (andb_comm (negb overwrite)). destruct (dmem String.eqb fs p && negb overwrite); [split; [reflexivity | split; reflexivity]|].
  destruct (encode (PDict (c_entries c))) as [j|e] eqn:E.
  - split; [intros; apply (dget_dset_other String.eqb_spec); assumption|]. split; [reflexivity|]. intros _. exists j.
    split; [apply (dget_dset_same String.eqb_spec) | apply encode_restored; exact E].
  - split; [intros; apply (dget_dset_other String.eqb_spec); assumption|]. split; [|congruence].
    intro S. destruct (encode_total _ S) as [j J]. congruence.
Qed.
Print Assumptions save_exact.

(** C47: loading either raises and changes nothing, or the file is a dictionary and its values replace
    those of the same names, all others being kept; without can_update no entry is replaced. *)
Theorem load_exact : forall c path can_update fs, let (c', r) := load c path can_update fs in
  match r with
  | Raise _ => c' = c
  | Ok _ =>
      c_path c' = c_path c /\ c_attrs c' = c_attrs c /\
      exists p new, (match path with Some p => Some p | None => c_path c end) = Some p /\
        dget String.eqb fs p = Some (Text (JDict new)) /\
        (forall k, dget key_eqb (c_entries c') k =
           match last_write key_eqb (map (fun e => (KStr (fst e), decode (snd e))) new) k with
           | Some v => Some v | None => dget key_eqb (c_entries c) k end) /\
        (can_update = false -> forall k v, dget key_eqb (c_entries c) k = Some v -> dget key_eqb (c_entries c') k = Some v)
  end /\
  (forall p new, (match path with Some p => Some p | None => c_path c end) = Some p ->
     dget String.eqb fs p = Some (Text (JDict new)) ->
     (r = Raise PermissionError <-> can_update = false /\ exists s, In s (map fst new) /\ dget key_eqb (c_entries c) (KStr s) <> None) /\
     (r = Raise PermissionError \/ r = Ok tt)).
Proof.
  intros c path can_update fs. unfold load. destruct (match path with Some p => Some p | None => c_path c end) as [p|]; [|split; [reflexivity | congruence]].
  destruct (dget String.eqb fs p) as [[j|]|] eqn:G; [|split; [reflexivity | congruence]|split; [reflexivity | congruence]].
  destruct j as [|b|z|s|l|new]; cbn [decode]; try (split; [reflexivity | congruence]).
  set (items := map (fun e => (KStr (fst e), decode (snd e))) new).
  assert (forall k, In k (map fst items) <-> exists s, In s (map fst new) /\ k = KStr s) as KI.
  { intro k. unfold items. rewrite map_map. cbn [fst]. rewrite !in_map_iff. split.
    - intros [e [E I]]. exists (fst e). split; [apply in_map; exact I | congruence].
    - intros [s [I E]]. apply in_map_iff in I. destruct I as [e [F I]]. exists e. split; [congruence | exact I]. }
  assert (existsb (fun e => dmem key_eqb (c_entries c) (fst e)) items = true <->
     exists s, In s (map fst new) /\ dget key_eqb (c_entries c) (KStr s) <> None) as EX.
  { rewrite existsb_exists. split.
    - intros [e [I M]]. apply (in_map fst) in I. apply KI in I. destruct I as [s [I E]]. exists s. split; [exact I|].
      rewrite <- E. unfold dmem in M. destruct (dget key_eqb (c_entries c) (fst e)); [discriminate | discriminate].
    - intros [s [I N]]. assert (In (KStr s) (map fst items)) as J by (apply KI; eauto). apply in_map_iff in J. destruct J as [e [E J]].
      exists e. split; [exact J|]. unfold dmem. rewrite E. destruct (dget key_eqb (c_entries c) (KStr s)); [reflexivity | congruence]. }
  destruct (negb can_update && existsb (fun e => dmem key_eqb (c_entries c) (fst e)) items) eqn:B.
  - split; [reflexivity|]. intros p0 new0 PE N0. assert (p0 = p) as -> by congruence. assert (new0 = new) as -> by congruence.
    apply andb_true_iff in B. destruct B as [B1 B2]. split; [|left; reflexivity].
    split; [intros _; split; [destruct can_update; [discriminate | reflexivity] | apply EX; exact B2] | reflexivity].
  - cbn [c_entries c_path c_attrs]. split.
    + split; [reflexivity|]. split; [reflexivity|]. exists p, new. split; [reflexivity|]. split; [exact G|].
      split; [intro k; apply (dget_dset_all key_eqb_spec)|].
      intros -> k v K. rewrite (dget_dset_all key_eqb_spec). destruct (last_write key_eqb items k) as [u|] eqn:LW; [|exact K].
      exfalso. cbn [negb andb] in B.
      assert (In k (map fst items)) as IK.
      { clear - LW. induction items as [|[a x] l IH]; [discriminate|]. rewrite last_write_cons in LW. cbn [map fst In].
        destruct (last_write key_eqb l k); [right; apply IH; exact LW|]. destruct (key_eqb_spec k a); [left; congruence | discriminate]. }
      apply KI in IK. destruct IK as [s [I ES]]. rewrite ES in K. apply not_true_iff_false in B. apply B. apply EX. exists s. split; [exact I | congruence].
    + intros p0 new0 PE N0. assert (p0 = p) as -> by congruence. assert (new0 = new) as -> by congruence. split; [|right; reflexivity]. split; [congruence|].
      intros [-> X]. apply EX in X. fold items in X. rewrite X in B. discriminate.
Qed.
Print Assumptions load_exact.

Example config_case :
  let c := Config [(KStr "verbose", PBool true); (KStr "M1", PArray [PNum 10; PNum 20]); (KStr "grid", PDict [(KStr "z", PNum 1); (KStr "a", PTuple [PNone])])] None [] in
  exists fs, save c (Some "run.json") false [("other", Unfinished)] = (fs, Ok tt) /\ NoDup (map fst (c_entries c)) /\
    c_entries (fst (new_config (Some "run.json") fs)) =
      [(KStr "M1", PList [PNum 10; PNum 20]); (KStr "grid", PDict [(KStr "a", PList [PNone]); (KStr "z", PNum 1)]); (KStr "verbose", PBool true)] /\
    snd (load c (Some "run.json") false fs) = Raise PermissionError /\
    snd (load c (Some "other") true fs) = Raise (OtherError "JSONDecodeError").
Proof.
  eexists. split; [vm_compute; reflexivity|]. split; [cbn; repeat constructor; cbn [In]; intuition discriminate|]. vm_compute. repeat split.
Qed.

(** The entries in a file are in order of their names. *)
Theorem save_sorted : forall d j, encode (PDict d) = Ok j -> forallb (fun e => is_str (fst e)) d = true ->
  exists ts, j = JDict ts /\ Sorted (fun a b => String.leb (fst a) (fst b) = true) ts.
Proof.
  intros d j E S. rewrite encode_dict in E.
  destruct (encode_items d) as [ys|] eqn:EI; cbn [rbind] in E; [|congruence].
  destruct (sort_items ys) as [s|] eqn:ES; cbn [rbind] in E; [|congruence].
  destruct (encode_keys s) as [ts|] eqn:EK; cbn [rbind] in E; [|congruence]. exists ts. split; [congruence|].
  assert (forallb (fun e => is_str (fst e)) ys = true) as SY.
  { clear - EI S. revert ys EI. induction d as [|[k x] d IH]; intros ys EI; cbn [encode_items] in EI.
    - assert (ys = []) as -> by congruence. reflexivity.
    - destruct (encode x); cbn [rbind] in EI; [|congruence]. destruct (encode_items d) as [r|]; cbn [rbind] in EI; [|congruence].
      assert (ys = (k, a) :: r) as -> by congruence. cbn [forallb fst] in *. apply andb_true_iff in S. destruct S as [-> S].
      apply IH; [exact S | reflexivity]. }
  destruct (sort_strings _ ys SY) as [s' [ES' SS]]. assert (s' = s) as -> by congruence.
  pose proof (sort_sorted _ _ _ ES) as SO. apply encode_keys_named in EK.
  clear - SS SO EK. induction EK as [|a b s ts [N V] EK IH]; [constructor|]. cbn [forallb] in SS. apply andb_true_iff in SS.
  destruct SS as [SA SS]. inversion SO as [|? ? SO' HD]; subst. constructor; [apply IH; assumption|].
  destruct EK as [|a' b' s ts [N' V'] EK]; [constructor|]. constructor. inversion HD as [|? ? L]; subst. unfold le_key in L.
  cbn [forallb] in SS. apply andb_true_iff in SS. destruct SS as [SA' _].
  destruct (fst a); try discriminate. destruct (fst a'); try discriminate. cbn [key_leb] in L. inversion N; inversion N'; subst. congruence.
Qed.
Print Assumptions save_sorted.

(** Not restored: objects json does not know are saved as null without any error. *)
Theorem save_object_refuted : forall i, exists fs,
  save (Config [(KStr "seed", PObj i)] None []) (Some "run.json") true [] = (fs, Ok tt) /\
  c_entries (fst (new_config (Some "run.json") fs)) = [(KStr "seed", PNone)].
Proof. intro i. eexists. split; vm_compute; reflexivity. Qed.
Print Assumptions save_object_refuted.

(** A save that fails destroys the file that was there. *)
Theorem save_failure_refuted : let c := Config [(KStr "a", PNum 1); (KInt 1, PNum 2)] (Some "run.json") [] in
  exists fs, save c None true [("run.json", Text (JDict [("a", JNum 0)]))] = (fs, Raise TypeError) /\
    snd (new_config (Some "run.json") fs) = Raise (OtherError "JSONDecodeError").
Proof. eexists. split; vm_compute; reflexivity. Qed.
Print Assumptions save_failure_refuted.

(** Attributes: reading one gives the entry of that name unless the class or an assignment defines
    it; assigning one changes no entry and is never saved. *)
Theorem attributes : forall c name v,
  (forall k, get_item (set_attribute c name v) k = get_item c k) /\
  (forall p o fs, save (set_attribute c name v) p o fs = save c p o fs) /\
  get_attribute (set_attribute c name v) name = Ok (Own v) /\
  (~ In name class_names -> dget String.eqb (c_attrs c) name = None ->
     get_attribute (set_item c (KStr name) v) name = Ok (Entry v) /\
     (dget key_eqb (c_entries c) (KStr name) = None -> get_attribute c name = Raise KeyError)) /\
  (In name class_names -> dget String.eqb (c_attrs c) name = None -> get_attribute (set_item c (KStr name) v) name = Ok Method).
Proof.
  intros c name v. split; [reflexivity|]. split; [reflexivity|]. unfold get_attribute, set_attribute. cbn [c_attrs].
  rewrite (dget_dset_same String.eqb_spec). split; [reflexivity|]. split.
  - intros NI N. unfold set_item, get_item. cbn [c_attrs c_entries]. rewrite N. destruct (inb_spec String.eqb_spec name class_names); [tauto|].
    rewrite (dget_dset_same key_eqb_spec). split; [reflexivity|]. intro H. rewrite H. reflexivity.
  - intros NI N. unfold set_item. cbn [c_attrs]. rewrite N. destruct (inb_spec String.eqb_spec name class_names); [reflexivity | tauto].
Qed.
Print Assumptions attributes.
Example attributes_case : let c := Config [(KStr "keys", PNum 1); (KStr "step", PNum 2)] None [] in
  get_attribute c "keys" = Ok Method /\ get_attribute c "step" = Ok (Entry (PNum 2)) /\ get_attribute c "missing" = Raise KeyError.
Proof. vm_compute. repeat split. Qed.
