(** * Output files *)
From Coq Require Import List Bool Arith Lia Ascii String Decimal DecimalString DecimalFacts DecimalNat.
From Verif Require Import State ModelPlot.
Import ListNotations.
Local Open Scope nat_scope.

(** ** Numerals *)
Definition digit (c : ascii) : bool := (48 <=? nat_of_ascii c) && (nat_of_ascii c <=? 57).
Fixpoint digits (s : string) : bool := match s with EmptyString => true | String c s => digit c && digits s end.
Lemma digits_uint d : digits (NilEmpty.string_of_uint d) = true.
Proof. induction d; cbn; auto. Qed.
Lemma to_uint_nonnil n : Nat.to_uint n <> Nil.
Proof.
  intros E. destruct n as [|n]; [discriminate|]. pose proof (Unsigned.of_to (Datatypes.S n)) as H. rewrite E in H. discriminate.
Qed.
Lemma str_uint n : str n = NilEmpty.string_of_uint (Nat.to_uint n).
Proof. unfold str. pose proof (to_uint_nonnil n). destruct (Nat.to_uint n); try contradiction; reflexivity. Qed.
Lemma digits_str n : digits (str n) = true.
Proof. rewrite str_uint. apply digits_uint. Qed.
Definition num (s : string) : option nat := option_map Nat.of_uint (NilEmpty.uint_of_string s).
Lemma num_str n : num (str n) = Some n.
Proof. unfold num. rewrite str_uint, NilEmpty.usu. cbn. rewrite Unsigned.of_to. reflexivity. Qed.
Lemma num_zeros k s : num (zeros k ++ s) = num s.
Proof. induction k as [|k IH]; [reflexivity|]. rewrite <- IH. unfold num. cbn. destruct (NilEmpty.uint_of_string (zeros k ++ s)); reflexivity. Qed.
Lemma zfill_str w n : zfill w (str n) = (zeros (w - String.length (str n)) ++ str n)%string.
Proof.
  unfold zfill. pose proof (digits_str n) as D. destruct (str n) as [|c r] eqn:E; [clear; induction (w - String.length ""); cbn; congruence|].
  cbn in D. apply andb_prop in D. destruct D as [D _].
  destruct (Ascii.eqb_spec c "+") as [->|]; [discriminate|]. destruct (Ascii.eqb_spec c "-") as [->|]; [discriminate|]. reflexivity.
Qed.
Lemma num_zfill w n : num (zfill w (str n)) = Some n.
Proof. rewrite zfill_str, num_zeros. apply num_str. Qed.
Lemma digits_app s t : digits (s ++ t) = digits s && digits t.
Proof. induction s as [|c s IH]; [reflexivity|]. cbn. rewrite IH. apply andb_assoc. Qed.
Lemma digits_zfill w n : digits (zfill w (str n)) = true.
Proof. rewrite zfill_str, digits_app, digits_str, andb_true_r. induction (w - _) as [|k IH]; [reflexivity|exact IH]. Qed.
Lemma zfill_inj w n m : zfill w (str n) = zfill w (str m) -> n = m.
Proof. intros E. assert (X : Some n = Some m) by (rewrite <- (num_zfill w n), <- (num_zfill w m), E; reflexivity). congruence. Qed.
Lemma str_inj n m : str n = str m -> n = m.
Proof. intros E. assert (X : Some n = Some m) by (rewrite <- (num_str n), <- (num_str m), E; reflexivity). congruence. Qed.
(** A numeral ends at the first character that is not a digit. *)
Lemma digits_split c s s' t t' : digit c = false -> digits s = true -> digits s' = true ->
  (s ++ String c t = s' ++ String c t')%string -> s = s' /\ t = t'.
Proof.
  intros Hc. revert s'. induction s as [|a s IH]; intros [|a' s'] D D' E; cbn in *.
  - injection E as E. auto.
  - injection E as <- _. rewrite Hc in D'. discriminate.
  - injection E as -> _. rewrite Hc in D. discriminate.
  - injection E as <- E. apply andb_prop in D. apply andb_prop in D'. destruct (IH s') as [-> ->]; tauto.
Qed.
Lemma file_inj w c t n m : digit c = false -> (zfill w (str n) ++ String c t = zfill w (str m) ++ String c t)%string -> n = m.
Proof. intros Hc E. destruct (digits_split c _ _ t t Hc (digits_zfill w n) (digits_zfill w m) E) as [E1 _]. eapply zfill_inj; eauto. Qed.
Lemma app_assoc_s (a b c : string) : ((a ++ b) ++ c = a ++ (b ++ c))%string.
Proof. induction a as [|x a IH]; [reflexivity|]. cbn. rewrite IH. reflexivity. Qed.
Lemma sub_inj w c d t p q n m : digit c = false -> digit d = false ->
  (str p ++ String c (zfill w (str n) ++ String d t) = str q ++ String c (zfill w (str m) ++ String d t))%string -> p = q /\ n = m.
Proof.
  intros Hc Hd E. destruct (digits_split c _ _ _ _ Hc (digits_str p) (digits_str q) E) as [E1 E2].
  split; [apply str_inj; exact E1|eapply file_inj; eauto].
Qed.

(** ** Files of a call *)
Definition files (O : outputs) (c : call) (k : counters) : list string := match output O c k with Ok (fs, _) => fs | Err _ => [] end.
Definition next (c : call) (k : counters) : counters :=
  match c with
  | DrawContinuum => mkCounters (c_grid k + 1) (c_mp k) (c_sbar k) (c_dens k) (c_u k) (c_phi k)
  | DrawMP _ | DrawGsdMP => mkCounters (c_grid k) (c_mp k + 1) (c_sbar k) (c_dens k) (c_u k) (c_phi k)
  | DrawGsdGrid => k
  | SaveSbar => mkCounters (c_grid k) (c_mp k) (c_sbar k + 1) (c_dens k) (c_u k) (c_phi k)
  | SaveDensity => mkCounters (c_grid k) (c_mp k) (c_sbar k) (c_dens k + 1) (c_u k) (c_phi k)
  | SaveU => mkCounters (c_grid k) (c_mp k) (c_sbar k) (c_dens k) (c_u k + 1) (c_phi k)
  | SavePhiMP => mkCounters (c_grid k) (c_mp k) (c_sbar k) (c_dens k) (c_u k) (c_phi k + 1)
  end.
Lemma output_next O c k fs k' : output O c k = Ok (fs, k') -> fs = files O c k /\ k' = next c k.
Proof. unfold files. intros E. rewrite E. split; [reflexivity|]. destruct c; cbn in *; try (injection E as _ <-; reflexivity). destruct (o_rigid O); [discriminate|]. injection E as _ <-. reflexivity. Qed.
Fixpoint later (cs : list call) (k : counters) : counters := match cs with [] => k | c :: cs => later cs (next c k) end.
Lemma outputs_files O cs : forall k fss, outputs_of O cs k = Ok fss ->
  forall f, In f (List.concat fss) <-> exists a c d, cs = a ++ c :: d /\ In f (files O c (later a k)).
Proof.
  induction cs as [|c cs IH]; intros k fss H f; cbn in H.
  - injection H as <-. cbn. split; [contradiction|]. intros (a & c & d & E & _). destruct a; discriminate.
  - destruct (output O c k) as [[fs k']|e] eqn:E; [|discriminate]. destruct (output_next _ _ _ _ _ E) as [-> ->]. cbn [bind] in H.
    destruct (outputs_of O cs (next c k)) as [r|e] eqn:E2; [|discriminate]. injection H as <-. cbn [List.concat]. rewrite in_app_iff, (IH _ _ E2 f). split.
    + intros [Hf|(a & c' & d & -> & Hf)]; [exists [], c, cs; auto|exists (c :: a), c', d; auto].
    + intros (a & c' & d & E3 & Hf). destruct a as [|x a]; injection E3 as -> ->; [left; exact Hf|right; eauto].
Qed.
Lemma later_grid a : forall k, c_grid k <= c_grid (later a k) /\ (In DrawContinuum a -> c_grid k < c_grid (later a k)) /\
  (~ In DrawContinuum a -> c_grid (later a k) = c_grid k).
Proof.
  induction a as [|c a IH]; intros k; cbn [later]; [split; [lia|split; [contradiction|reflexivity]]|].
  destruct (IH (next c k)) as (A & B & C). cbn [In]. destruct c; cbn in A, B, C |- *; (split; [lia|split; [intros [E|E]; try discriminate; try (specialize (B E)); lia|]]);
    intros N; try (rewrite C by tauto; reflexivity). exfalso. tauto.
Qed.
Lemma later_le a : forall k, c_mp k <= c_mp (later a k) /\ c_sbar k <= c_sbar (later a k) /\ c_dens k <= c_dens (later a k) /\ c_phi k <= c_phi (later a k).
Proof. induction a as [|c a IH]; intros k; cbn [later]; [lia|]. specialize (IH (next c k)). destruct c; cbn in *; lia. Qed.

(** Calls without a user-chosen name. *)
Definition nameless (c : call) : Prop := forall s, c <> DrawMP (Some s).
(** The number in the name of the files of a call. *)
Definition stamp (c : call) (k : counters) : nat :=
  match c with DrawContinuum | DrawGsdGrid | SaveU => c_grid k | DrawMP _ | DrawGsdMP => c_mp k
             | SaveSbar => c_sbar k | SaveDensity => c_dens k | SavePhiMP => c_phi k end.
Lemma continuum_file O k f : In f (files O DrawContinuum k) -> png ("Continuum/" ++ zfill 5 (str (c_grid k))) = f.
Proof. unfold files. cbn -[str zfill append]. destruct (o_rigid O) as [|[] ?]; cbn -[str zfill append]; tauto. Qed.
Ltac in_files H := try (apply continuum_file in H); unfold files in H; cbn -[str zfill seq append] in H;
  repeat match type of H with
  | In _ (map _ (seq _ _)) => apply in_map_iff in H; let p := fresh "p" in destruct H as (p & H & _)
  | _ \/ _ => destruct H as [H|H]
  | False => contradiction
  end.
Lemma same_file O c c' k k' f : nameless c -> nameless c' -> In f (files O c k) -> In f (files O c' k') -> c = c' /\ stamp c k = stamp c' k'.
Proof.
  intros N N' H H'. destruct c as [|[s|]| | | | | |]; try (exfalso; eapply N; reflexivity);
  destruct c' as [|[s'|]| | | | | |]; try (exfalso; eapply N'; reflexivity);
  in_files H; in_files H'; subst f; unfold png in H'; rewrite ?app_assoc_s in H'; cbn [append] in H'; try discriminate H';
  (split; [reflexivity|]); cbn [stamp]; injection H' as H'; try (rewrite ?app_assoc_s in H'; cbn [append] in H');
  try (symmetry; eapply file_inj; [|exact H']; reflexivity);
  try (symmetry; eapply sub_inj; [| |exact H']; reflexivity).
Qed.

(** ** C46 *)
(** Between two calls of kind [c] there is a call of draw_continuum. *)
Definition separated (c : call) (cs : list call) : Prop :=
  forall a b d, cs = a ++ c :: b ++ c :: d -> In DrawContinuum b.
(** The functions that use a counter which they advance themselves. *)
Definition counting (c : call) : Prop :=
  match c with DrawContinuum | DrawMP None | DrawGsdMP | SaveSbar | SaveDensity | SavePhiMP => True | _ => False end.

Lemma NoDup_app_s {A} (l m : list A) : NoDup l -> NoDup m -> (forall a, In a l -> ~ In a m) -> NoDup (l ++ m).
Proof.
  intros Hl Hm Hd. induction Hl as [|a l Na Hl IH]; [exact Hm|]. cbn. constructor.
  - rewrite in_app_iff. intros [X|X]; [contradiction|exact (Hd a (or_introl eq_refl) X)].
  - apply IH. intros b Hb. apply Hd. right. exact Hb.
Qed.
Lemma NoDup_map_s {A B} (f : A -> B) l : (forall a b, f a = f b -> a = b) -> NoDup l -> NoDup (map f l).
Proof.
  intros Hf. induction 1 as [|a l Na Hl IH]; [constructor|]. cbn. constructor; [|exact IH].
  intros Hi. apply in_map_iff in Hi. destruct Hi as (b & E & Hb). apply Hf in E. subst b. contradiction.
Qed.
Lemma files_NoDup O c k : nameless c -> NoDup (files O c k).
Proof.
  intros N. destruct c as [|[s|]| | | | | |]; try (exfalso; eapply N; reflexivity); unfold files; cbn -[str zfill append seq].
  - destruct (o_rigid O) as [|[] ?]; repeat constructor; auto.
  - apply NoDup_map_s; [|apply seq_NoDup]. intros a b E. unfold png in E. rewrite !app_assoc_s in E. cbn [append] in E. injection E as E.
    rewrite ?app_assoc_s in E; cbn [append] in E. refine (proj1 (sub_inj 5 "/" "." "png" a b (c_mp k) (c_mp k) _ _ E)); reflexivity.
  - apply NoDup_map_s; [|apply seq_NoDup]. intros a b E. unfold png in E. rewrite !app_assoc_s in E. cbn [append] in E. injection E as E.
    rewrite ?app_assoc_s in E; cbn [append] in E. refine (proj1 (sub_inj 5 "_" "." "png" a b (c_mp k) (c_mp k) _ _ E)); reflexivity.
  - constructor.
    + intros Hi. apply in_map_iff in Hi. destruct Hi as (i & E & _). unfold png in E. rewrite !app_assoc_s in E. discriminate E.
    + apply NoDup_map_s; [|apply seq_NoDup]. intros a b E. unfold png in E. rewrite !app_assoc_s in E. cbn [append] in E. injection E as E.
      rewrite ?app_assoc_s in E; cbn [append] in E. refine (proj1 (sub_inj 5 "/" "." "png" a b (c_grid k) (c_grid k) _ _ E)); reflexivity.
  - repeat constructor; auto.
  - repeat constructor; auto.
  - constructor; [intros [E|[]]; discriminate E|repeat constructor; auto].
  - repeat constructor; auto.
Qed.
(** Any sequence of calls of any length, starting from any counters, writes each
    file once exactly if there is a draw_continuum between any two calls of save_u
    and between any two calls of draw_gsd_grid. *)
Lemma p_C46_exact : forall O cs k fss, Forall nameless cs -> outputs_of O cs k = Ok fss ->
  (NoDup (List.concat fss) <-> separated SaveU cs /\ separated DrawGsdGrid cs).
Proof.
  intros O cs. induction cs as [|c cs IH]; intros k fss N H.
  { cbn in H. injection H as <-. split; [|constructor]. intros _. split; intros a b d E; destruct a; discriminate. }
  pose proof H as H0. cbn in H. inversion N as [|? ? N1 N2]; subst.
  destruct (output O c k) as [[fs k']|e] eqn:E; [|discriminate]. destruct (output_next _ _ _ _ _ E) as [-> ->]. cbn [bind] in H.
  destruct (outputs_of O cs (next c k)) as [r|e] eqn:E2; [|discriminate]. injection H as <-. cbn [List.concat].
  specialize (IH _ _ N2 E2). split.
  - intros ND. assert (NR : NoDup (List.concat r)).
    { clear - ND. induction (files O c k) as [|x l IHl]; [exact ND|]. apply IHl. inversion ND; assumption. }
    assert (DJ : forall f, In f (files O c k) -> In f (List.concat r) -> False).
    { clear - ND. induction (files O c k) as [|x l IHl]; [intros ? []|]. cbn in ND. inversion ND as [|? ? NI ND']; subst. intros f [->|Hf] Hr.
      - apply NI, in_app_iff. right. exact Hr.
      - eapply IHl; eauto. }
    destruct (proj1 IH NR) as [S1 S2].
    assert (SS : forall u, (u = SaveU \/ u = DrawGsdGrid) -> separated u cs -> separated u (c :: cs)).
    { intros u Hu Sep a b d EQ. destruct a as [|x a]; injection EQ as -> EQ; [|eapply Sep; exact EQ].
      destruct (in_dec (fun x y : call => ltac:(decide equality; decide equality; apply string_dec)) DrawContinuum b) as [Hb|Hb]; [exact Hb|exfalso].
      destruct (later_grid b (next u k)) as (_ & _ & LG). specialize (LG Hb).
      assert (FE : files O u (later b (next u k)) = files O u k).
      { destruct Hu as [->| ->]; unfold files; cbn -[str zfill append seq] in *; rewrite LG; reflexivity. }
      assert (NE : exists f, In f (files O u k)) by (destruct Hu as [->| ->]; eexists; left; reflexivity).
      destruct NE as [f Hf]. apply (DJ f Hf). apply (outputs_files O cs _ _ E2). exists b, u, d. split; [exact EQ|]. rewrite FE. exact Hf. }
    split; apply SS; auto.
  - intros [S1 S2]. apply NoDup_app_s.
    + apply files_NoDup. exact N1.
    + apply IH. split; [intros a b d EQ; apply (S1 (c :: a) b d); rewrite EQ; reflexivity|intros a b d EQ; apply (S2 (c :: a) b d); rewrite EQ; reflexivity].
    + intros f Hf Hr. apply (outputs_files O cs _ _ E2) in Hr. destruct Hr as (a & c' & d & -> & Hf').
      assert (NC : nameless c') by (apply (proj1 (Forall_forall _ _) N2), in_app_iff; right; left; reflexivity).
      destruct (same_file _ _ _ _ _ _ N1 NC Hf Hf') as [<- ST].
      destruct (later_grid a (next c k)) as (G1 & G2 & _). destruct (later_le a (next c k)) as (L1 & L2 & L3 & L4).
      destruct c as [|[s|]| | | | | |]; cbn in ST, G1, G2, L1, L2, L3, L4; try lia.
      * specialize (S2 [] a d eq_refl). apply G2 in S2. lia.
      * specialize (S1 [] a d eq_refl). apply G2 in S1. lia.
Qed.
(** Without save_u and draw_gsd_grid no file is ever overwritten. *)
Lemma p_C46_distinct : forall O cs k fss, Forall counting cs -> outputs_of O cs k = Ok fss -> NoDup (List.concat fss).
Proof.
  intros O cs k fss HC H. apply (p_C46_exact O cs k fss); [|exact H|].
  - eapply Forall_impl; [|exact HC]. intros c Hc s ->. exact Hc.
  - split; intros a b d ->; exfalso.
    + apply (proj1 (Forall_forall _ _) HC SaveU). apply in_app_iff. right. left. reflexivity.
    + apply (proj1 (Forall_forall _ _) HC DrawGsdGrid). apply in_app_iff. right. left. reflexivity.
Qed.
(** Two calls of save_u in a row write to the same two files, whatever else is
    called in between except draw_continuum. *)
Lemma p_C46_save_u_refuted : forall O cs k, ~ In DrawContinuum cs -> exists fss us,
  outputs_of O (SaveU :: cs ++ [SaveU]) k = Ok (us :: fss ++ [us]) /\ us <> [].
Proof.
  intros O cs k Hc.
  assert (T : forall cs k, ~ In DrawContinuum cs -> exists fss, outputs_of O (cs ++ [SaveU]) k = Ok (fss ++ [files O SaveU k])).
  { clear. induction cs as [|c cs IH]; intros k Hc; [exists []; reflexivity|].
    change (outputs_of O ((c :: cs) ++ [SaveU]) k) with ('(fs, k) <- output O c k ;; r <- outputs_of O (cs ++ [SaveU]) k ;; Ok (fs :: r)).
    destruct (output O c k) as [[fs k']|e] eqn:E.
    - cbn [bind]. destruct (output_next _ _ _ _ _ E) as [-> ->]. destruct (IH (next c k)) as [fss ->]; [intros X; apply Hc; right; exact X|]. cbn [bind].
      exists (files O c k :: fss). cbn [app]. f_equal. f_equal. f_equal. f_equal. unfold files. destruct c; cbn; try reflexivity. exfalso. apply Hc. left. reflexivity.
    - destruct c; try discriminate E. exfalso. apply Hc. left. reflexivity. }
  destruct (T cs (next SaveU k) Hc) as [fss E]. exists fss, (files O SaveU k). cbn [outputs_of output bind]. 
  split; [|discriminate]. transitivity (r <- outputs_of O (cs ++ [SaveU]) (next SaveU k) ;; Ok (files O SaveU k :: r)); [reflexivity|]. rewrite E. reflexivity.
Qed.
(** A name given by the user can hit a numbered file. *)
Lemma p_C46_name_refuted : exists O k fs gs, outputs_of O [DrawMP None; DrawMP (Some "0"%string)] k = Ok [fs; gs] /\ fs = gs /\ fs <> [].
Proof. exists (mkOut [false] 1), (mkCounters 0 0 0 0 0 0). eexists. eexists. split; [reflexivity|]. split; [reflexivity|discriminate]. Qed.
Example x_C46_distinct : exists fss,
  outputs_of (mkOut [false; true] 2) [DrawContinuum; DrawMP None; DrawMP None; SaveSbar; SaveSbar; DrawGsdMP; DrawContinuum] (mkCounters 0 9 0 0 0 0) = Ok fss /\
  List.concat fss = ["Continuum/00000.png"; "MP_0/00009.png"; "MP_1/00009.png"; "MP_0/00010.png"; "MP_1/00010.png"; "data/s_bar_00000.npy"; "data/s_bar_00001.npy";
    "GSD/MP_0_00011.png"; "GSD/MP_1_00011.png"; "Continuum/00001.png"]%string.
Proof. eexists. split; reflexivity. Qed.
