(** The text of a receipt determines the receipt (C86). *)
From Coq Require Import NArith List String Ascii Bool Lia Decimal DecimalString.
From Verif Require Import Base Interface CoreModel World AirdropModel PoolModel PeripheryModel.
From Verif Require Import CoreSpec PeripheryWorld PeripherySpec BaseLemmas AirdropSpec AirdropMerkle ReceiptModel ReceiptSpec ReceiptProofs RenderModel RenderSpec.
Import ListNotations.
Open Scope string_scope.
Open Scope N_scope.
Open Scope list_scope.

(** ** Characters *)

Definition hval (c : ascii) : N := let n := N_of_ascii c in if n <? 58 then n - 48 else n - 87.
(** The first character of an escaped string *)
Definition next (s : string) : option (ascii * string) :=
  match s with
  | "" => None
  | String c r =>
      if negb (N_of_ascii c =? 92) then Some (c, r) else
      match r with
      | "" => None
      | String x r =>
          match N_of_ascii x with
          | 48 => Some (ascii_of_N 0, r) | 116 => Some (ascii_of_N 9, r) | 110 => Some (ascii_of_N 10, r)
          | 114 => Some (ascii_of_N 13, r) | 34 => Some (ascii_of_N 34, r) | 92 => Some (ascii_of_N 92, r)
          | _ =>
              match r with
              | String _ (String a (String b r')) =>
                  if N_of_ascii b =? 125 then Some (ascii_of_N (hval a), r')
                  else match r' with String _ r'' => Some (ascii_of_N (hval a * 16 + hval b), r'') | "" => None end
              | _ => None
              end
          end
      end
  end.

Lemma next_escape c r : next (String.append (escape c) r) = Some (c, r).
Proof. destruct c as [[] [] [] [] [] [] [] []]; reflexivity. Qed.

Lemma escape_head c r t : String.append (escape c) r <> String """" t.
Proof. destruct c as [[] [] [] [] [] [] [] []]; intros H; discriminate H. Qed.

Lemma escape_inj c r c' r' : String.append (escape c) r = String.append (escape c') r' -> c = c' /\ r = r'.
Proof.
  intros H. apply (f_equal next) in H. rewrite !next_escape in H. injection H as -> ->. auto.
Qed.

Lemma append_assoc a b c : String.append (String.append a b) c = String.append a (String.append b c).
Proof. induction a; cbn; congruence. Qed.

Lemma append_head a b c : String.append a b = String.append a c -> b = c.
Proof. induction a; cbn; intros H; auto. injection H as H. auto. Qed.

Lemma escaped_inj s : forall s' t t',
  String.append (escaped s) (String """" t) = String.append (escaped s') (String """" t') -> s = s' /\ t = t'.
Proof.
  induction s as [|c s]; intros [|c' s'] t t' H; cbn [escaped] in H; rewrite ?append_assoc in H.
  - cbn in H. injection H as H. auto.
  - symmetry in H. change (String.append "" (String """" t)) with (String """" t) in H. now apply escape_head in H.
  - change (String.append "" (String """" t')) with (String """" t') in H. now apply escape_head in H.
  - apply escape_inj in H. destruct H as [-> H]. apply IHs in H. destruct H. subst. auto.
Qed.

Lemma first_split c d1 t1 : forall d2 t2, has_char c d1 = false -> has_char c d2 = false ->
  String.append d1 (String c t1) = String.append d2 (String c t2) -> d1 = d2 /\ t1 = t2.
Proof.
  induction d1 as [|a d1]; intros [|b d2] t2 H1 H2 E; cbn in *.
  - injection E as E. auto.
  - injection E as <- E. now rewrite Ascii.eqb_refl in H2.
  - injection E as -> E. now rewrite Ascii.eqb_refl in H1.
  - apply orb_false_elim in H1, H2. injection E as -> E.
    destruct (IHd1 d2 t2) as [-> ->]; tauto.
Qed.

(** ** Routes *)

Lemma route_text_inj r t r' t' : String.append (route_text r) t = String.append (route_text r') t' -> r = r' /\ t = t'.
Proof.
  destruct r as [p d], r' as [p' d']. unfold route_text. cbn [pool_id token_denom]. rewrite !append_assoc.
  intros H. apply append_head in H.
  assert (E : forall d t, String.append ", token_denom: """ (String.append (escaped d) (String.append """ }" t))
    = String "," (String.append " token_denom: """ (String.append (escaped d) (String """" (String.append " }" t))))).
  { reflexivity. }
  rewrite !E in H. apply first_split in H; [|apply dec_no; reflexivity..].
  destruct H as [H1 H2]. apply dec_inj in H1. apply append_head, escaped_inj in H2. destruct H2 as [-> H2].
  apply append_head in H2. subst. auto.
Qed.

Lemma concat_cons a b l : String.concat ", " (a :: b :: l) = String.append a (String.append ", " (String.concat ", " (b :: l))).
Proof. reflexivity. Qed.

Lemma route_list_inj l : forall l',
  String.append (String.concat ", " (map route_text l)) "])" = String.append (String.concat ", " (map route_text l')) "])" -> l = l'.
Proof.
  induction l as [|r l]; intros [|r' l'] H; auto.
  - cbn [map] in H. exfalso. destruct l'; cbn in H; discriminate H.
  - cbn [map] in H. exfalso. destruct l; cbn in H; discriminate H.
  - cbn [map] in H. destruct l as [|x l], l' as [|y l'].
    + cbn [String.concat map] in H. apply route_text_inj in H. destruct H. congruence.
    + cbn [map] in H. rewrite concat_cons, append_assoc in H. cbn [String.concat] in H. apply route_text_inj in H.
      destruct H as [_ H]. discriminate H.
    + cbn [map] in H. rewrite concat_cons, append_assoc in H. cbn [String.concat] in H. apply route_text_inj in H.
      destruct H as [_ H]. discriminate H.
    + cbn [map] in H. rewrite !concat_cons, !append_assoc in H. apply route_text_inj in H.
      destruct H as [-> H]. apply append_head in H. f_equal. apply IHl. exact H.
Qed.

Lemma routes_text_inj l l' : routes_text l = routes_text l' -> l = l'.
Proof. unfold routes_text. intros H. apply append_head in H. now apply route_list_inj. Qed.

(** ** Coins *)

Fixpoint digits (s : string) : bool :=
  match s with "" => true | String c r => has_char c "0123456789" && digits r end.

Lemma uint_digits u : digits (NilEmpty.string_of_uint u) = true.
Proof. induction u; cbn [NilEmpty.string_of_uint digits]; auto. Qed.

Lemma digits_split a d : forall a' d', digits a = true -> digits a' = true -> worded d = true -> worded d' = true ->
  String.append a d = String.append a' d' -> a = a' /\ d = d'.
Proof.
  induction a as [|c a]; intros [|c' a'] d' A A' D D' E; cbn [String.append] in E; auto.
  - subst d. cbn [digits] in A'. cbn [worded] in D. apply andb_prop in A'. destruct A' as [A' _].
    rewrite A' in D. discriminate.
  - subst d'. cbn [digits] in A. cbn [worded] in D'. apply andb_prop in A. destruct A as [A _].
    rewrite A in D'. discriminate.
  - injection E as -> E. cbn [digits] in A, A'. apply andb_prop in A, A'.
    destruct (IHa a' d') as [-> ->]; tauto.
Qed.

Lemma coin_text_inj c c' : worded (fst c) = true -> worded (fst c') = true -> coin_text c = coin_text c' -> c = c'.
Proof.
  destruct c as [d n], c' as [d' n']. unfold coin_text. cbn [fst snd]. intros D D' H.
  apply digits_split in H; auto; try apply uint_digits. destruct H as [H ->]. apply dec_inj in H. congruence.
Qed.

(** ** Receipts *)

Definition nums : list string :=
  ["amount"; "cooldown"; "max_trade_amount"; "amount_in"; "amount_out"; "finalized_at"; "id"; "total_amount";
   "airdrop_id"; "redeemed"; "refund"].
Definition amts : list string := ["input"; "min_output"; "max_input"; "output"; "input_amount"; "min_output_amount"].
Definition among (k : string) (l : list string) : bool := existsb (String.eqb k) l.
(** The key tells the type of the value. *)
Definition kinded (kv : string * value) : bool :=
  let '(k, v) := kv in
  match v with
  | Num _ => among k nums || String.eqb k "expires_at"
  | Rts _ => String.eqb k "routes"
  | Amt _ => among k amts
  | Txt s => if String.eqb k "expires_at" then String.eqb s "never" else negb (among k nums || among k amts || String.eqb k "routes")
  end.

Lemma among_not k l l' : forallb (fun x => negb (among x l')) l = true -> among k l = true -> among k l' = false.
Proof.
  intros H K. unfold among in K. apply existsb_exists in K. destruct K as (x & X & E). apply String.eqb_eq in E. subst x.
  eapply forallb_forall in H; eauto. now apply negb_true_iff in H.
Qed.

Lemma never_dec n : dec n <> "never".
Proof.
  intros H. pose proof (uint_digits (N.to_uint n)) as D. unfold dec in H. rewrite H in D. discriminate.
Qed.

Lemma text_inj k v v' : kinded (k, v) = true -> kinded (k, v') = true ->
  (forall c, v = Amt c -> worded (fst c) = true) -> (forall c, v' = Amt c -> worded (fst c) = true) ->
  text v = text v' -> v = v'.
Proof.
  assert (NA : among k nums = true -> among k amts = false) by (apply among_not; reflexivity).
  assert (AN : among k amts = true -> among k nums = false) by (apply among_not; reflexivity).
  assert (NR : String.eqb k "routes" = true -> among k nums = false /\ among k amts = false /\ String.eqb k "expires_at" = false).
  { intros H. apply String.eqb_eq in H. subst. repeat split. }
  assert (NE : String.eqb k "expires_at" = true -> among k nums = false /\ among k amts = false /\ String.eqb k "routes" = false).
  { intros H. apply String.eqb_eq in H. subst. repeat split. }
  destruct v as [s|n|r|c], v' as [s'|n'|r'|c']; cbn [kinded text]; intros K K' W W' E;
    try (apply dec_inj in E; congruence); try (apply routes_text_inj in E; congruence); try congruence;
    try (apply coin_text_inj in E; [congruence|auto..]);
    exfalso;
    destruct (String.eqb k "expires_at") eqn:X, (String.eqb k "routes") eqn:R, (among k nums) eqn:N, (among k amts) eqn:A;
    cbn in *; try discriminate; try (destruct NE; now auto); try (destruct NR; now auto); try (specialize (NA eq_refl); discriminate).
  all: try (destruct NE as (? & ? & ?); auto; discriminate); try (destruct NR as (? & ? & ?); auto; discriminate).
  all: try (apply String.eqb_eq in K; subst; symmetry in E; now apply never_dec in E).
  all: try (apply String.eqb_eq in K'; subst; now apply never_dec in E).
Qed.

Lemma shown_inj r : forall r', Forall (fun kv => kinded kv = true) r -> Forall (fun kv => kinded kv = true) r' ->
  worded_coins r -> worded_coins r' -> shown r = shown r' -> r = r'.
Proof.
  induction r as [|[k v] r]; intros [|[k' v'] r'] K K' W W' H; cbn in H; try discriminate; auto.
  inversion K; inversion K'; subst. injection H as -> E H. f_equal.
  - f_equal. eapply text_inj; eauto; intros c ->; [apply (W k' c)|apply (W' k' c)]; left; reflexivity.
  - apply IHr; auto; intros x c X; [apply (W x c)|apply (W' x c)]; right; exact X.
Qed.

Lemma core_kinded h e i m s r : core_receipt h e i m s = Ok r ->
  Forall (fun kv => kinded kv = true) r /\ worded_coins r.
Proof.
  assert (D : forall r, forallb kinded r = true -> forallb (fun kv => match snd kv with Amt _ => false | _ => true end) r = true ->
    Forall (fun kv => kinded kv = true) r /\ worded_coins r).
  { intros x F A. split; [apply Forall_forall; now apply forallb_forall|].
    intros k c I. eapply forallb_forall in A; [|exact I]. discriminate. }
  intros H. unfold core_receipt in H. apply bind_ok in H. destruct H as (s1 & _ & H).
  destruct m as [n rc rf|rt| |g|b]; cbn in H.
  - unfold mint_receipt in H. mon; apply D; reflexivity.
  - unfold burn_receipt in H. mon; apply D; reflexivity.
  - mon. apply D; reflexivity.
  - unfold gov_receipt in H. destruct g as [[x|]| | | | | |[x|]| |]; mon; apply D; reflexivity.
  - unfold rebal_receipt in H. destruct b as [[x|] ? ?|t|]; [mon; apply D; reflexivity..| |mon; apply D; reflexivity].
    unfold rebal_trade_receipt in H. destruct t; case_eqb (c_reserve (k_cfg s1)) target; mon; apply D; reflexivity.
Qed.

Lemma drop_kinded A i m s r : drop_receipt A i m s = Ok r ->
  Forall (fun kv => kinded kv = true) r /\ worded_coins r.
Proof.
  assert (D : forall r, forallb kinded r = true -> forallb (fun kv => match snd kv with Amt _ => false | _ => true end) r = true ->
    Forall (fun kv => kinded kv = true) r /\ worded_coins r).
  { intros x F X. split; [apply Forall_forall; now apply forallb_forall|].
    intros k c I. eapply forallb_forall in X; [|exact I]. discriminate. }
  intros H. destruct m as [[]| |[]|]; cbn in H; unfold fund_receipt, close_receipt in H; mon;
    repeat (match goal with x : N * airdrop |- _ => destruct x end; mon);
    try (destruct (a_kind _); mon); apply D; reflexivity.
Qed.

Lemma periphery_kinded p i m r : periphery_receipt p i m = Ok r -> Forall (fun kv => kinded kv = true) r.
Proof.
  assert (D : forall r, forallb kinded r = true -> Forall (fun kv => kinded kv = true) r).
  { intros x F. apply Forall_forall; now apply forallb_forall. }
  intros H. destruct m; unfold periphery_receipt in H; mon;
    try (match goal with x : (_ * _)%type |- _ => destruct x end; mon); apply D; reflexivity.
Qed.

Theorem core_text h e i m s r h' e' i' m' s' r' : core_receipt h e i m s = Ok r -> core_receipt h' e' i' m' s' = Ok r' ->
  shown r = shown r' -> r = r'.
Proof. intros H H'. apply core_kinded in H, H'. apply shown_inj; tauto. Qed.

Theorem drop_text A i m s r A' i' m' s' r' : drop_receipt A i m s = Ok r -> drop_receipt A' i' m' s' = Ok r' ->
  shown r = shown r' -> r = r'.
Proof. intros H H'. apply drop_kinded in H, H'. apply shown_inj; tauto. Qed.

Theorem periphery_text p i m r p' i' m' r' : periphery_receipt p i m = Ok r -> periphery_receipt p' i' m' = Ok r' ->
  worded_coins r -> worded_coins r' -> shown r = shown r' -> r = r'.
Proof. intros H H'. apply periphery_kinded in H, H'. apply shown_inj; auto. Qed.

(** ** Journals *)

Definition legible (n : entry) : Prop := Forall (fun kv => kinded kv = true) (n_attrs n) /\ worded_coins (n_attrs n).

Lemma displayed_inj j : forall j', Forall legible j -> Forall legible j' -> displayed j = displayed j' -> j = j'.
Proof.
  induction j as [|[h t r] j]; intros [|[h' t' r'] j'] L L' H; cbn in H; try discriminate; auto.
  inversion L as [|? ? [] ?]; inversion L' as [|? ? [] ?]; subst. injection H as -> -> E H. f_equal; auto.
  f_equal. now apply shown_inj.
Qed.

Lemma journal_legible hist : forall w, Forall legible (journal w hist).
Proof.
  induction hist as [|[h ev] hist]; intros w; cbn [journal]; auto.
  destruct (run_event ev w); auto. apply Forall_app. split; auto.
  unfold published. destruct ev; auto. destruct (core_receipt _ _ _ _ _) eqn:E; auto.
  constructor; auto. apply core_kinded in E. exact E.
Qed.

Lemma ajournal_legible A hist : forall w, Forall legible (ajournal A w hist).
Proof.
  induction hist as [|ev hist]; intros w; cbn [ajournal]; auto.
  destruct (run_aevent A ev w); auto. apply Forall_app. split; auto.
  unfold apublished. destruct ev; auto. destruct (drop_receipt _ _ _ _) eqn:E; auto.
  constructor; auto. apply drop_kinded in E. exact E.
Qed.

Theorem journal_text w hist w' hist' : displayed (journal w hist) = displayed (journal w' hist') ->
  journal w hist = journal w' hist'.
Proof. apply displayed_inj; apply journal_legible. Qed.

Theorem ajournal_text A w hist A' w' hist' : displayed (ajournal A w hist) = displayed (ajournal A' w' hist') ->
  ajournal A w hist = ajournal A' w' hist'.
Proof. apply displayed_inj; apply ajournal_legible. Qed.

Theorem history_text w hist w' hist' b :
  none_is_nobody hist -> none_is_nobody hist' -> agrees b (w_core w) -> agrees b (w_core w') ->
  displayed (journal w hist) = displayed (journal w' hist') ->
  let s := w_core (run w (map snd hist)) in let s' := w_core (run w' (map snd hist')) in
  k_supply s = k_supply s' /\ c_gov (k_cfg s) = c_gov (k_cfg s') /\ k_pending s = k_pending s'
  /\ p_paused (c_paused (k_cfg s)) = p_paused (c_paused (k_cfg s'))
  /\ p_expires (c_paused (k_cfg s)) = p_expires (c_paused (k_cfg s'))
  /\ c_reserve (k_cfg s) = c_reserve (k_cfg s')
  /\ option_map r_manager (k_rebal s) = option_map r_manager (k_rebal s')
  /\ forall i o, trade_get (k_trades s) i o = trade_get (k_trades s') i o.
Proof.
  intros N N' B B' J s s'. apply journal_text in J.
  pose proof (journal_agrees hist w b N B) as H. pose proof (journal_agrees hist' w' b N' B') as H'.
  rewrite J in H. fold s in H. fold s' in H'. set (z := fold_left enter _ b) in *. clearbody z.
  destruct H as (H1 & H2 & H3 & H4 & H5 & H6 & H7), H' as (K1 & K2 & K3 & K4 & K5 & K6 & K7).
  rewrite H4 in K4. apply pair_equal_spec in K4. destruct K4 as [K4 K4'].
  repeat split; try congruence.
Qed.

Theorem drop_history_text A w hist A' w' hist' : afresh w -> afresh w' ->
  displayed (ajournal A w hist) = displayed (ajournal A' w' hist') ->
  let s := aw_st (arun A w hist) in let s' := aw_st (arun A' w' hist') in
  forall id, option_map page_of (get_drop s id) = option_map page_of (get_drop s' id)
    /\ forall a who, get_drop s id = Some a -> a_kind a = KOpen -> get_log s id who = get_log s' id who.
Proof.
  intros F F' J s s' id. apply ajournal_text in J.
  pose proof (ajournal_agrees A w hist F) as H. pose proof (ajournal_agrees A' w' hist' F') as H'.
  rewrite J in H. fold s in H. fold s' in H'. set (z := fold_left denter _ blank) in *. clearbody z.
  destruct H as (H1 & H2 & _), H' as (K1 & K2 & _).
  assert (P : option_map page_of (get_drop s id) = option_map page_of (get_drop s' id)) by (rewrite <- H1, <- K1; reflexivity).
  split; [exact P|]. intros a who G O. rewrite <- (H2 id a who G O).
  rewrite G in P. destruct (get_drop s' id) as [a'|] eqn:G'; [|discriminate]. apply (K2 id a' who G').
  cbn [option_map] in P. injection P. intros. destruct (a_kind a'); auto. rewrite O in *. discriminate.
Qed.
