(** * Proofs about printed context graphs *)
From Verif Require Import Base ParserModel ParserProofs StringSpec AnnotModel AnnotFinal CollectModel CollectSpec CollectProofs GraphModel GraphSpec GraphWalk GraphProofs GraphFinal InspectModel InspectSpec.

Section ctree_induction.
Context (P : ctree -> Prop) (H : forall n ts, (forall t, In t ts -> P t) -> P (CTree n ts)).
Fixpoint ctree_ind' (t : ctree) : P t :=
  match t with
  | CTree n ts => H n ts ((fix go (l : list ctree) : forall t, In t l -> P t :=
      match l with
      | [] => fun t (Hin : In t []) => match Hin with end
      | x :: l' => fun t Hin => match Hin with or_introl e => match e with eq_refl => ctree_ind' x end | or_intror Hin' => go l' t Hin' end
      end) ts)
  end.
End ctree_induction.

Section Machine.
Context (x : names) (u : unit) (st : storage) (vis : dmap bool) (g : graph).

Definition caption_of (n : nat) : str := node_label x u st n ++ $": " ++ (match dlookup vis n with Some true => $"visible" | _ => $"hidden" end).

(** Rendered text of trees. *)
Fixpoint render (prefix : str) (is_last : bool) (t : ctree) : str :=
  match t with
  | CTree n ts =>
      line_break ++ prefix ++ (if is_last then $"`" else $"|") ++ $"-" ++ caption_of n ++
      (fix renders (ts : list ctree) : str :=
        match ts with
        | [] => []
        | t :: ts' => render (prefix ++ (if is_last then $" " else $"|") ++ $" ") (match ts' with [] => true | _ => false end) t ++ renders ts'
        end) ts
  end.
Definition renders (prefix : str) : list ctree -> str := fix renders (ts : list ctree) : str :=
  match ts with
  | [] => []
  | t :: ts' => render prefix (match ts' with [] => true | _ => false end) t ++ renders ts'
  end.

Lemma render_eq prefix is_last n ts : render prefix is_last (CTree n ts) =
  line_break ++ prefix ++ (if is_last then $"`" else $"|") ++ $"-" ++ caption_of n ++ renders (prefix ++ (if is_last then $" " else $"|") ++ $" ") ts.
Proof. reflexivity. Qed.

Lemma label_nonempty n : node_label x u st n <> [].
Proof. unfold node_label. destruct (nm_kind x n); discriminate. Qed.

Definition known (t : ctree) : Prop := forall n, In n (tree_nodes t) -> exists b, dlookup vis n = Some b.

Definition fine (N : nat) (t : ctree) : Prop := forall fuel, N <= fuel -> forall is_last p, exists f,
  dump x u st vis g fuel (top t) is_last p = Printed (mkPrinter (p_out p ++ render (p_prefix p) is_last t) (p_prefix p) (p_pending p) f).

Lemma dump_eq fuel n is_last p : dump x u st vis g (S fuel) n is_last p =
  bind (description vis n) (fun d =>
  bind (add_children x u st vis g fuel (children g n) (mkPrinter ((p_out p ++ line_break ++ p_prefix p ++ (if is_last then $"`" else $"|") ++ $"-" ++
                 match node_label x u st n with [] => [] | l => l ++ $": " end) ++ d) (p_prefix p ++ (if is_last then $" " else $"|") ++ $" ") (p_pending p) true)) (fun p1 =>
  bind (flush x u st vis g fuel (length (p_pending p)) p1) (fun p2 =>
  Printed (mkPrinter (p_out p2) (firstn (length (p_prefix p2) - 2) (p_prefix p2)) (p_pending p2) (p_first p2))))).
Proof. reflexivity. Qed.
Lemma flush_eq fuel depth p : flush x u st vis g (S fuel) depth p =
  if Nat.ltb depth (length (p_pending p)) then
    match p_pending p with
    | [] => Undefined
    | n :: _ => bind (dump x u st vis g fuel n true p) (fun p' => flush x u st vis g fuel depth (mkPrinter (p_out p') (p_prefix p') (tl (p_pending p')) (p_first p')))
    end
  else Printed p.
Proof. reflexivity. Qed.
Lemma add_eq fuel c cs p : add_children x u st vis g (S fuel) (c :: cs) p =
  if p_first p then add_children x u st vis g fuel cs (mkPrinter (p_out p) (p_prefix p) (c :: p_pending p) false)
  else
    match p_pending p with
    | [] => Undefined
    | n :: _ => bind (dump x u st vis g fuel n false p) (fun p' => add_children x u st vis g fuel cs (mkPrinter (p_out p') (p_prefix p') (c :: tl (p_pending p')) false))
    end.
Proof. reflexivity. Qed.

Lemma flush_last N t : fine N t -> forall fuel, S (S N) <= fuel -> forall out prefix pending first, exists f,
  flush x u st vis g fuel (length pending) (mkPrinter out prefix (top t :: pending) first) = Printed (mkPrinter (out ++ render prefix true t) prefix pending f).
Proof.
  intros H fuel Hf out prefix pending first. destruct fuel as [|[|fuel]]; [lia|lia|]. rewrite flush_eq. cbn [p_pending length]. destruct (Nat.ltb_spec (length pending) (S (length pending))); [|lia].
  destruct (H (S fuel) ltac:(lia) true (mkPrinter out prefix (top t :: pending) first)) as (f & ->). cbn [bind p_out p_prefix p_pending p_first tl].
  rewrite flush_eq. cbn [p_pending]. destruct (Nat.ltb_spec (length pending) (length pending)); [lia|]. exists f. reflexivity.
Qed.

Lemma add_rest : forall rest t N, (forall t', In t' (t :: rest) -> fine N t') -> forall fuel, S (S N) + length rest <= fuel -> forall out prefix pending, exists out' n,
  add_children x u st vis g fuel (map top rest) (mkPrinter out prefix (top t :: pending) false) = Printed (mkPrinter out' prefix (n :: pending) false) /\
  exists t', n = top t' /\ fine N t' /\ out' ++ render prefix true t' = out ++ renders prefix (t :: rest).
Proof.
  induction rest as [|t2 rest IH]; intros t N H fuel Hf out prefix pending.
  - destruct fuel as [|fuel]; [cbn in Hf; lia|]. exists out, (top t). split; [reflexivity|]. exists t. split; [reflexivity|]. split; [apply H; left; reflexivity|]. cbn. rewrite app_nil_r. reflexivity.
  - destruct fuel as [|fuel]; [cbn in Hf; lia|]. cbn [map]. rewrite add_eq. cbn [p_first p_pending].
    destruct (H t (or_introl eq_refl) fuel ltac:(cbn in Hf; lia) false (mkPrinter out prefix (top t :: pending) false)) as (f & ->). cbn [bind p_out p_prefix p_pending p_first tl].
    destruct (IH t2 N) with (fuel := fuel) (out := out ++ render prefix false t) (prefix := prefix) (pending := pending) as (out' & n & E & t' & En & Ht' & Eo).
    + intros t' Ht'. apply H. right. exact Ht'.
    + cbn in Hf. lia.
    + exists out', n. split; [exact E|]. exists t'. split; [exact En|]. split; [exact Ht'|]. rewrite Eo. cbn [renders]. rewrite <- app_assoc. reflexivity.
Qed.

Lemma children_fine ts N : (forall t, In t ts -> fine N t) -> forall fuel, S (S (S N)) + length ts <= fuel -> forall out prefix pending, exists f,
  bind (add_children x u st vis g fuel (map top ts) (mkPrinter out prefix pending true)) (fun p => flush x u st vis g fuel (length pending) p) =
  Printed (mkPrinter (out ++ renders prefix ts) prefix pending f).
Proof.
  intros H fuel Hf out prefix pending. destruct ts as [|t ts]; destruct fuel as [|fuel]; cbn [length] in Hf; try lia.
  - cbn [map add_children bind]. rewrite flush_eq. cbn [p_pending renders]. destruct (Nat.ltb_spec (length pending) (length pending)); [lia|]. rewrite app_nil_r. exists true. reflexivity.
  - cbn [map]. change (add_children x u st vis g (S fuel) (top t :: map top ts) (mkPrinter out prefix pending true)) with (add_children x u st vis g fuel (map top ts) (mkPrinter out prefix (top t :: pending) false)).
    destruct (add_rest ts t N H fuel ltac:(lia) out prefix pending) as (out' & n & -> & t' & -> & Ht' & Eo). cbn [bind].
    destruct (flush_last N t' Ht' (S fuel) ltac:(lia) out' prefix pending false) as (f & ->). rewrite Eo. exists f. reflexivity.
Qed.

Lemma bound (ts : list ctree) : (forall t, In t ts -> exists N, fine N t) -> exists N, forall t, In t ts -> fine N t.
Proof.
  induction ts as [|t ts IH]; intros H; [exists 0; intros t []|]. destruct IH as (N & HN); [intros t' Ht'; apply H; right; exact Ht'|]. destruct (H t (or_introl eq_refl)) as (M & HM).
  exists (N + M). intros t' [<-|Ht'] fuel Hf; [apply HM; lia|apply (HN t' Ht'); lia].
Qed.

Lemma resized prefix (c : str) : length c = 2 -> firstn (length (prefix ++ c) - 2) (prefix ++ c) = prefix.
Proof. intros H. rewrite app_length, H. replace (length prefix + 2 - 2) with (length prefix + 0) by lia. rewrite firstn_app_2. cbn. apply app_nil_r. Qed.

Lemma tree_fine t : below g t -> known t -> exists N, fine N t.
Proof.
  induction t as [n ts IH] using ctree_ind'. intros Hb Hk. inversion Hb as [n' ts' Hts Hall E]; subst.
  destruct (bound ts) as (N & HN). { intros t Ht. apply IH; [exact Ht|apply Hall, Ht|]. intros m Hm. apply Hk. right. apply in_flat_map. exists t. split; assumption. }
  exists (S (S (S (S N))) + length ts). intros fuel Hf is_last p. destruct fuel as [|fuel]; [lia|]. cbn [top]. rewrite dump_eq.
  destruct (Hk n (or_introl eq_refl)) as (b & Eb). unfold description. rewrite Eb. cbn [bind].
  set (out := (_ ++ (if b then _ else _))). set (prefix := p_prefix p ++ _).
  destruct (children_fine ts N HN fuel ltac:(lia) out prefix (p_pending p)) as (f & E). rewrite <- Hts.
  destruct (add_children x u st vis g fuel (map top ts) (mkPrinter out prefix (p_pending p) true)) as [p1| |]; cbn [bind] in *; try discriminate E. rewrite E. cbn [bind p_out p_prefix p_pending p_first].
  exists f. rewrite render_eq. f_equal. f_equal.
  - subst out. rewrite <- !app_assoc. f_equal. f_equal. f_equal. f_equal. f_equal. fold prefix.
    unfold caption_of. rewrite Eb. pose proof (label_nonempty n) as Hn. destruct (node_label x u st n) as [|c l]; [destruct (Hn eq_refl)|]. rewrite <- !app_assoc. destruct b; reflexivity.
  - subst prefix. apply resized. destruct is_last; reflexivity.
Qed.

Lemma print_spec ts title : map top ts = children g (u_root u) -> (forall t, In t ts -> below g t /\ known t) ->
  exists N, forall fuel, N <= fuel -> print_graph x u st vis g fuel title = Printed (title ++ renders [] ts ++ line_break).
Proof.
  intros Hts H. destruct (bound ts) as (N & HN); [intros t Ht; apply tree_fine; apply H; exact Ht|]. exists (S (S (S N)) + length ts). intros fuel Hf.
  unfold print_graph. rewrite <- Hts. destruct (children_fine ts N HN fuel Hf title [] []) as (f & E). cbn [length] in E.
  destruct (add_children x u st vis g fuel (map top ts) (mkPrinter title [] [] true)) as [p1| |]; cbn [bind] in *; try discriminate E. rewrite E. cbn [bind p_out]. rewrite <- app_assoc. reflexivity.
Qed.

(** ** Outline *)

Lemma indent_render prefix_cs : Forall (fun c : str => c = $"| " \/ c = $"  ") prefix_cs -> forall (is_last : bool) caption,
  indented caption (length prefix_cs) (concat prefix_cs ++ (if is_last then $"`" else $"|") ++ $"-" ++ caption).
Proof.
  induction 1 as [|c cs Hc Hcs IH]; intros is_last caption; cbn [concat length app].
  - rewrite app_assoc. apply (indented_connector caption ((if is_last then $"`" else $"|") ++ $"-")). destruct is_last; [right|left]; reflexivity.
  - rewrite <- app_assoc. apply indented_level; [exact Hc|apply IH].
Qed.

Lemma render_outline t : forall cs is_last, Forall (fun c : str => c = $"| " \/ c = $"  ") cs -> exists lines,
  render (concat cs) is_last t = flat_map (fun line => line_break ++ line) lines /\
  Forall2 (fun e line => indented (snd e) (fst e) line) (outline caption_of (length cs) t) lines.
Proof.
  induction t as [n ts IH] using ctree_ind'. intros cs is_last Hcs.
  set (cs' := cs ++ [if is_last then $"  " else $"| "]).
  assert (Hcs' : Forall (fun c : str => c = $"| " \/ c = $"  ") cs') by (apply Forall_app; split; [exact Hcs|]; constructor; [destruct is_last; auto|constructor]).
  assert (Hlen : length cs' = S (length cs)) by (unfold cs'; rewrite app_length; cbn; lia).
  assert (Hconcat : concat cs' = concat cs ++ (if is_last then $" " else $"|") ++ $" ") by (unfold cs'; rewrite concat_app; destruct is_last; reflexivity).
  assert (Hrec : exists lines, renders (concat cs') ts = flat_map (fun line => line_break ++ line) lines /\
    Forall2 (fun e line => indented (snd e) (fst e) line) (flat_map (outline caption_of (S (length cs))) ts) lines).
  { clear Hconcat. induction ts as [|t ts IHts]; [exists []; split; [reflexivity|constructor]|].
    destruct IHts as (lines & E & F); [intros t' Ht'; apply IH; right; exact Ht'|]. destruct (IH t (or_introl eq_refl) cs' (match ts with [] => true | _ => false end) Hcs') as (lines1 & E1 & F1).
    exists (lines1 ++ lines). split.
    - change (renders (concat cs') (t :: ts)) with (render (concat cs') (match ts with [] => true | _ => false end) t ++ renders (concat cs') ts). rewrite E, E1, flat_map_app. reflexivity.
    - cbn [flat_map]. rewrite Hlen in F1. apply Forall2_app; assumption. }
  destruct Hrec as (lines & E & F). rewrite render_eq, <- Hconcat, E.
  exists ((concat cs ++ (if is_last then $"`" else $"|") ++ $"-" ++ caption_of n) :: lines). split.
  - cbn [flat_map]. rewrite <- !app_assoc. reflexivity.
  - cbn [outline]. constructor; [|exact F]. apply indent_render, Hcs.
Qed.

Lemma renders_outline ts : exists lines, renders [] ts = flat_map (fun line => line_break ++ line) lines /\
  Forall2 (fun e line => indented (snd e) (fst e) line) (flat_map (outline caption_of 0) ts) lines.
Proof.
  induction ts as [|t ts (lines & E & F)]; [exists []; split; [reflexivity|constructor]|].
  destruct (render_outline t [] (match ts with [] => true | _ => false end) (Forall_nil _)) as (lines1 & E1 & F1). exists (lines1 ++ lines). split.
  - change (renders [] (t :: ts)) with (render [] (match ts with [] => true | _ => false end) t ++ renders [] ts). cbn [concat] in E1. rewrite E, E1, flat_map_app. reflexivity.
  - cbn [flat_map]. apply Forall2_app; assumption.
Qed.

End Machine.

(** ** Trees *)

Lemma NoDup_app' {A} (l1 l2 : list A) : NoDup l1 -> NoDup l2 -> (forall a, In a l1 -> ~ In a l2) -> NoDup (l1 ++ l2).
Proof.
  induction l1 as [|a l1 IH]; intros H1 H2 H; [exact H2|]. inversion H1; subst. cbn. constructor.
  - intros Hin. apply in_app_iff in Hin as [Hin|Hin]; [contradiction|]. apply (H a (or_introl eq_refl) Hin).
  - apply IH; auto. intros b Hb. apply H. right. exact Hb.
Qed.

Section Trees.
Context (g : graph) (root : nat) (T : tree_like g root).

Fixpoint build (k : nat) (n : nat) : ctree :=
  CTree n (match k with O => [] | S k' => map (build k') (children g n) end).

Lemma build_top k n : top (build k n) = n.
Proof. destruct k; reflexivity. Qed.

Lemma build_below k : forall n l, path (edge g) root (n :: l) -> length (g_nodes g) <= k + length l -> below g (build k n).
Proof.
  induction k as [|k IH]; intros n l Hp Hk; cbn [build].
  - apply (path_length g root T) in Hp. cbn in Hp, Hk. lia.
  - constructor.
    + rewrite map_map. rewrite <- (map_id (children g n)) at 2. apply map_ext. intros c. apply build_top.
    + intros t Ht. apply in_map_iff in Ht as (c & <- & Hc). apply children_iff in Hc. apply (IH c (n :: l)); [constructor; assumption|cbn; lia].
Qed.

Lemma below_paths t : below g t -> forall l, path (edge g) root (top t :: l) -> forall m, In m (tree_nodes t) ->
  exists q1 q, path (edge g) root (m :: q) /\ m :: q = q1 ++ top t :: l.
Proof.
  induction t as [n ts IH] using ctree_ind'. intros Hb l Hp m Hm. inversion Hb as [n' ts' Hts Hall E]; subst. cbn [top] in *.
  destruct Hm as [<-|Hm]; [exists [], l; split; [exact Hp|reflexivity]|]. apply in_flat_map in Hm as (t & Ht & Hm).
  assert (He : edge g n (top t)) by (apply children_iff; rewrite <- Hts; apply in_map, Ht).
  destruct (IH t Ht (Hall t Ht) (n :: l)) with (m := m) as (q1 & q & Hq & E); [constructor; assumption|exact Hm|].
  exists (q1 ++ [top t]), q. split; [exact Hq|]. rewrite E, <- app_assoc. reflexivity.
Qed.

Lemma below_complete q1 : forall t, below g t -> forall l m q, path (edge g) root (m :: q) -> m :: q = q1 ++ top t :: l -> In m (tree_nodes t).
Proof.
  induction q1 as [|c q1 IH] using rev_ind; intros [n ts] Hb l m q Hp E.
  - cbn in E. injection E as -> ->. left. reflexivity.
  - inversion Hb as [n' ts' Hts Hall En]; subst. rewrite <- app_assoc in E. cbn [app top] in E. right. apply in_flat_map.
    assert (Hp' : path (edge g) root (c :: n :: l)) by (rewrite E in Hp; eapply path_suffix; [exact T|exact Hp]).
    assert (Hc : In c (map top ts)) by (rewrite Hts; apply children_iff; inversion Hp'; assumption).
    apply in_map_iff in Hc as (t & <- & Ht). exists t. split; [exact Ht|]. apply (IH t (Hall t Ht) (n :: l) m q Hp E).
Qed.

Lemma below_nodup t : below g t -> forall l, path (edge g) root (top t :: l) -> NoDup (tree_nodes t).
Proof.
  induction t as [n ts IH] using ctree_ind'. intros Hb l Hp. inversion Hb as [n' ts' Hts Hall E]; subst. cbn [top tree_nodes] in *.
  assert (He : forall t, In t ts -> path (edge g) root (top t :: n :: l)).
  { intros t Ht. constructor; [exact Hp|]. apply children_iff. rewrite <- Hts. apply in_map, Ht. }
  assert (Hq : forall t m, In t ts -> In m (tree_nodes t) -> exists q1 q, path (edge g) root (m :: q) /\ m :: q = q1 ++ top t :: n :: l).
  { intros t m Ht Hm. apply below_paths; [apply Hall, Ht|apply He, Ht|exact Hm]. }
  constructor.
  - intros Hin. apply in_flat_map in Hin as (t & Ht & Hm). destruct (Hq t n Ht Hm) as (q1 & q & Hq1 & E).
    assert (q = l) by (eapply path_unique; [exact T|eassumption|eassumption]). subst q. apply (f_equal (@length nat)) in E. rewrite app_length in E. cbn in E. lia.
  - assert (Hd : NoDup (map top ts)) by (rewrite Hts; eapply children_nodup, T). clear Hts Hb.
    induction ts as [|t ts IHts]; [constructor|]. cbn [flat_map map] in *. inversion Hd as [|? ? Hnot Hd']; subst. apply NoDup_app'.
    + apply (IH t (or_introl eq_refl) (Hall t (or_introl eq_refl)) (n :: l)). apply He. left. reflexivity.
    + apply IHts; auto.
      * intros t' Ht'. apply IH. right. exact Ht'.
      * intros t' Ht'. apply Hall. right. exact Ht'.
      * intros t' Ht'. apply He. right. exact Ht'.
      * intros t' m Ht'. apply Hq. right. exact Ht'.
    + intros m Hm Hm'. apply in_flat_map in Hm' as (t' & Ht' & Hm').
      destruct (Hq t m (or_introl eq_refl) Hm) as (q1 & q & Hp1 & E1). destruct (Hq t' m (or_intror Ht') Hm') as (q2 & q' & Hp2 & E2).
      assert (q = q') by (eapply path_unique; [exact T|eassumption|eassumption]). subst q'. rewrite E1 in E2.
      assert (E3 : top t :: n :: l = top t' :: n :: l).
      { apply (f_equal (@rev nat)) in E2. rewrite !rev_app_distr in E2. change (rev (?a :: n :: l)) with (rev (n :: l) ++ [a]) in E2. rewrite <- !app_assoc in E2.
        apply app_inv_head in E2. injection E2 as ->. reflexivity. }
      injection E3 as E3. apply Hnot. rewrite E3. apply in_map, Ht'.
Qed.

Lemma forest : exists ts, below g (CTree root ts) /\ NoDup (tree_nodes (CTree root ts)) /\ forall n, In n (tree_nodes (CTree root ts)) <-> reachable g root n.
Proof.
  assert (Hb := build_below (length (g_nodes g)) root [] (path_root _ _) ltac:(cbn; lia)).
  destruct (build (length (g_nodes g)) root) as [n ts] eqn:E. assert (Et := build_top (length (g_nodes g)) root). rewrite E in Et. cbn in Et. subst n.
  exists ts. split; [exact Hb|]. split; [eapply below_nodup with (l := []); [exact Hb|constructor]|]. intros n. split.
  - intros Hn. destruct (below_paths _ Hb [] (path_root _ _) n Hn) as (q1 & q & Hq & _). exists q. exact Hq.
  - intros (l & Hl). assert (exists q1, n :: l = q1 ++ [root]) as (q1 & El).
    { clear -Hl. induction Hl as [|p c l0 Hp (q' & E) He]; [exists []; reflexivity|]. exists (c :: q'). rewrite E. reflexivity. }
    apply (below_complete q1 _ Hb [] n l Hl). exact El.
Qed.

End Trees.

(** ** Reading the text *)

Lemma indented_unique c1 d1 s : indented c1 d1 s -> forall c2 d2, indented c2 d2 s -> c1 = c2 /\ d1 = d2.
Proof.
  induction 1 as [c Hc|c d line Hc H IH]; intros c2 d2 H2.
  - inversion H2 as [c' Hc' Ed E|c' d' line' Hc' H' Ed E]; subst.
    + split; [|reflexivity]. destruct Hc as [->| ->], Hc' as [->| ->]; cbn in E; congruence.
    + destruct Hc as [->| ->], Hc' as [->| ->]; cbn in E; discriminate E.
  - inversion H2 as [c' Hc' Ed E|c' d' line' Hc' H' Ed E]; subst.
    + destruct Hc as [->| ->], Hc' as [->| ->]; cbn in E; discriminate E.
    + assert (line' = line) by (destruct Hc as [->| ->], Hc' as [->| ->]; cbn in E; congruence). subst line'. destruct (IH _ _ H') as (-> & ->). split; reflexivity.
Qed.

Lemma single_app s t : single_line (s ++ t) <-> single_line s /\ single_line t.
Proof. unfold single_line. rewrite in_app_iff. tauto. Qed.

Lemma indented_single c d s : indented c d s -> single_line c -> single_line s.
Proof.
  induction 1 as [c' Hc|c' d line Hc H IH]; intros Hs; apply single_app; split; auto; destruct Hc as [->| ->]; intros H'; cbn in H'; destruct H' as [H'|[H'|[]]]; discriminate H'.
Qed.

Lemma lines_unique ls : forall ls', Forall single_line ls -> Forall single_line ls' ->
  flat_map (fun line => line_break ++ line) ls ++ line_break = flat_map (fun line => line_break ++ line) ls' ++ line_break -> ls = ls'.
Proof.
  assert (K : forall l l' r r', single_line l -> single_line l' -> l ++ line_break ++ r = l' ++ line_break ++ r' -> l = l' /\ r = r').
  { induction l as [|a l IH]; intros [|b l'] r r' H H' E; cbn in E.
    - injection E as ->. split; reflexivity.
    - injection E as E _. exfalso. apply H'. left. symmetry. exact E.
    - injection E as E _. exfalso. apply H. left. exact E.
    - injection E as -> E. destruct (IH l' r r') as (-> & ->); [intros Hin; apply H; right; exact Hin|intros Hin; apply H'; right; exact Hin|exact E|]. split; reflexivity. }
  assert (H0 : forall l, exists r, flat_map (fun line => line_break ++ line) l ++ line_break = line_break ++ r) by (intros [|a l]; eexists; reflexivity).
  induction ls as [|l ls IH]; intros [|l' ls'] H H' E.
  - reflexivity.
  - exfalso. apply (f_equal (@length ascii)) in E. cbn [flat_map] in E. rewrite !app_length in E. cbn in E. lia.
  - exfalso. apply (f_equal (@length ascii)) in E. cbn [flat_map] in E. rewrite !app_length in E. cbn in E. lia.
  - inversion H; inversion H'; subst. cbn [flat_map] in E. rewrite <- !app_assoc in E. apply app_inv_head in E.
    destruct (H0 ls) as (r & Er), (H0 ls') as (r' & Er'). rewrite Er, Er' in E. apply K in E as (-> & E); [|assumption|assumption]. f_equal. apply IH; [assumption|assumption|]. rewrite Er, Er', E. reflexivity.
Qed.

Lemma outlined_unique title text l1 l2 : outlined title text l1 -> outlined title text l2 ->
  (forall e, In e l1 \/ In e l2 -> single_line (snd e)) -> l1 = l2.
Proof.
  intros (ls1 & E1 & F1) (ls2 & E2 & F2) H. rewrite E1 in E2. apply app_inv_head in E2.
  assert (K : forall l ls, (forall e, In e l -> single_line (snd e)) -> Forall2 (fun e line => indented (snd e) (fst e) line) l ls -> Forall single_line ls).
  { intros l ls Hl F. clear -Hl F. induction F as [|e line l ls He F IH]; [constructor|]. constructor.
    - eapply indented_single; [exact He|]. apply Hl. left. reflexivity.
    - apply IH. intros e' He'. apply Hl. right. exact He'. }
  apply lines_unique in E2; [|apply (K l1); auto|apply (K l2); auto]. subst ls2. clear -F1 F2.
  revert l2 F2. induction F1 as [|[d c] line l1 ls He F IH]; intros l2 F2; inversion F2 as [|[d' c'] ? l2' ? He' F']; subst; [reflexivity|].
  destruct (indented_unique _ _ _ He _ _ He') as (Ec & Ed). cbn in Ec, Ed. subst. f_equal. apply IH, F'.
Qed.

(** An outline of a forest tells the trees. *)
Fixpoint size (t : ctree) : nat := match t with CTree _ ts => S (list_sum (map size ts)) end.

Lemma outline_deep caption : forall t d e, In e (outline caption d t) -> d <= fst e.
Proof.
  induction t as [n ts IH] using ctree_ind'. intros d e [<-|He]; [cbn; lia|]. apply in_flat_map in He as (t & Ht & He). specialize (IH t Ht (S d) e He). lia.
Qed.

Lemma deep_prefix d l1 l2 r1 r2 : (forall e : nat * str, In e l1 -> d < fst e) -> (forall e, In e l2 -> d < fst e) ->
  (forall e r, r1 = e :: r -> fst e <= d) -> (forall e r, r2 = e :: r -> fst e <= d) -> l1 ++ r1 = l2 ++ r2 -> l1 = l2 /\ r1 = r2.
Proof.
  revert l2. induction l1 as [|e l1 IH]; intros [|e' l2] H1 H2 H3 H4 E; cbn in E.
  - split; [reflexivity|exact E].
  - specialize (H3 _ _ E). specialize (H2 e' (or_introl eq_refl)). lia.
  - symmetry in E. specialize (H4 _ _ E). specialize (H1 e (or_introl eq_refl)). lia.
  - injection E as <- E. destruct (IH l2) as (-> & ->); auto.
    + intros x Hx. apply H1. right. exact Hx.
    + intros x Hx. apply H2. right. exact Hx.
Qed.

Lemma outline_injective caption caption' k : forall ts ts' d, list_sum (map size ts) <= k ->
  flat_map (outline caption d) ts = flat_map (outline caption' d) ts' -> map (labelled caption) ts = map (labelled caption') ts'.
Proof.
  induction k as [|k IH]; intros [|[n cs] ts] [|[n' cs'] ts'] d Hk E; cbn in Hk, E; try discriminate E; try lia; try reflexivity.
  injection E as En E. change (fold_right Init.Nat.add 0 (map size ts)) with (list_sum (map size ts)) in Hk.
  apply (deep_prefix d) in E as (E1 & E2).
  - cbn [map labelled]. rewrite En. f_equal; [f_equal; apply (IH cs cs' (S d)); [lia|exact E1]|]. apply (IH ts ts' d); [lia|exact E2].
  - intros e He. apply in_flat_map in He as (t & _ & He). apply outline_deep in He. lia.
  - intros e He. apply in_flat_map in He as (t & _ & He). apply outline_deep in He. lia.
  - intros e r Er. destruct ts as [|[m ms] ts]; [discriminate|]. injection Er as <- _. cbn. lia.
  - intros e r Er. destruct ts' as [|[m ms] ts']; [discriminate|]. injection Er as <- _. cbn. lia.
Qed.

(** ** Everything together *)

Lemma caption_captioned x u st vis n b : dlookup vis n = Some b -> captioned x u st n b (caption_of x u st vis n).
Proof.
  intros Eb. unfold captioned, caption_of, node_label, get_named, get. rewrite Eb. unfold python_name.
  destruct (lookup_attrs st n) as [a|]; cbn [option_map].
  - set (spelling := match n_spelling (at_named a) with [] => u_name u n | _ => _ end).
    assert (Hs : (n_spelling (at_named a) <> [] /\ spelling = n_spelling (at_named a)) \/ (n_spelling (at_named a) = [] /\ spelling = u_name u n)).
    { unfold spelling. destruct (n_spelling (at_named a)); [right; split; reflexivity|left; split; [discriminate|reflexivity]]. }
    destruct (str_eqb spelling (nm_simple x n)) eqn:E; [apply str_eqb_eq in E|assert (E' : spelling <> nm_simple x n) by (intros E'; apply str_eqb_eq in E'; congruence)].
    + exists []. split; [unfold tick; rewrite <- !app_assoc; destruct b; reflexivity|]. left. split; [reflexivity|]. intros a' [= <-]. rewrite <- E. exact Hs.
    + exists ($" as '" ++ spelling ++ $"'"). split; [unfold tick; rewrite <- !app_assoc; destruct b; reflexivity|]. right. exists a, spelling. repeat split; auto.
  - exists []. split; [unfold tick; rewrite <- !app_assoc; destruct b; reflexivity|]. left. split; [reflexivity|discriminate].
Qed.

Definition marker (g : graph) : str := match g_nodes g with [_] => $"<no children>" ++ line_break | _ => [] end.

Lemma inspect_graph_spec x u st vis g title : tree_like g (u_root u) -> (forall n, reachable g (u_root u) n -> exists b, dlookup vis n = Some b) ->
  exists ts, below g (CTree (u_root u) ts) /\ NoDup (tree_nodes (CTree (u_root u) ts)) /\ (forall n, In n (tree_nodes (CTree (u_root u) ts)) <-> reachable g (u_root u) n) /\
  exists N text, outlined title text (flat_map (outline (caption_of x u st vis) 0) ts) /\
  forall fuel, N <= fuel -> inspect_graph x u st vis g fuel title = Printed (text ++ marker g).
Proof.
  intros T Hv. destruct (forest g (u_root u) T) as (ts & Hb & Hn & Hr). exists ts. split; [exact Hb|]. split; [exact Hn|]. split; [exact Hr|].
  inversion Hb as [n' ts' Hts Hall E]; subst.
  destruct (print_spec x u st vis g ts title Hts) as (N & HN).
  { intros t Ht. split; [apply Hall, Ht|]. intros m Hm. apply Hv, Hr. right. apply in_flat_map. exists t. split; assumption. }
  destruct (renders_outline x u st vis ts) as (lines & E & F). exists N, (title ++ renders x u st vis [] ts ++ line_break). split.
  - exists lines. split; [rewrite E; reflexivity|exact F].
  - intros fuel Hf. unfold inspect_graph. rewrite (HN fuel Hf). reflexivity.
Qed.

Lemma inspect_spec u : placed u -> forall found implicit module_name g' contexts vis' warned b,
  process u found implicit module_name = Done (Pruned g' contexts vis' warned b) -> forall x,
  let g := bs_graph b in let st := bs_annotations b in let root := u_root u in
  exists ts ts' caption caption' text text' N,
    below g (CTree root ts) /\ below g' (CTree root ts') /\
    (NoDup (tree_nodes (CTree root ts)) /\ forall n, In n (tree_nodes (CTree root ts)) <-> reachable g root n) /\
    (NoDup (tree_nodes (CTree root ts')) /\ forall n, In n (tree_nodes (CTree root ts')) <-> In n (g_nodes g')) /\
    (forall n l, path (edge g) root (n :: l) -> exists v, visible_along u st (n :: l) v /\ captioned x u st n v (caption n)) /\
    (forall n, In n (g_nodes g') -> exists v, dlookup vis' n = Some v /\ captioned x u st n v (caption' n)) /\
    outlined visibility_title text (flat_map (outline caption 0) ts) /\ outlined pruned_title text' (flat_map (outline caption' 0) ts') /\
    forall show_visibility show_pruned fuel, N <= fuel ->
      inspect fuel x u show_visibility show_pruned found implicit module_name =
      Printed ((if show_visibility then text ++ (match g_nodes g with [_] => $"<no children>" ++ line_break | _ => [] end) else []) ++
               (if show_pruned then text' ++ (match ts' with [] => $"<no children>" ++ line_break | _ => [] end) else [])).
Proof.
  intros P found implicit mname g' contexts vis' warned b H x g st root.
  assert (S := process_spec u P found implicit mname). rewrite H in S. cbn zeta in S. destruct S as (vis & contexts0 & Hb & Hv & Hcy & Hcx & Hh & Hp & Hw).
  destruct (one_place u P b Hb) as (T & _). fold g root in T.
  destruct (visibility_spec u st g T) as (m & Em & Hm1 & Hm2). fold g st in Hv. rewrite Hv in Em. injection Em as <-.
  assert (Hk : forall n, reachable g root n -> exists v, dlookup vis n = Some v) by (intros n Hn; apply Hm1, Hn).
  destruct (hide_spec u st mname g T contexts0 vis) as (c2 & v2 & E2 & Hh1 & Hh2). fold g st in Hh. rewrite Hh in E2. injection E2 as <- <-.
  assert (Hk' : forall n, reachable g root n -> exists v, dlookup vis' n = Some v).
  { intros n (l & Hl). destruct (Hh1 n l Hl) as (_ & A & B).
    assert (D : (exists m, In m (n :: l) /\ foreign u st mname m) \/ ~ (exists m, In m (n :: l) /\ foreign u st mname m)).
    { apply exists_foreign_dec. }
    destruct D as [D|D]; [exists false; apply A, D|]. rewrite (B D). apply Hk. exists l. exact Hl. }
  destruct (pruned_spec u contexts vis' g T Hk') as (g2 & E2 & T' & He & Hn & Hr & Hpath). fold g in Hp. rewrite Hp in E2. injection E2 as <-.
  assert (Hk2 : forall n, reachable g' root n -> exists v, dlookup vis' n = Some v).
  { intros n (l & Hl). apply Hk'. exists l. apply Hpath, Hl. }
  destruct (inspect_graph_spec x u st vis g visibility_title T Hk) as (ts & A1 & A2 & A3 & N1 & text & A4 & A5).
  destruct (inspect_graph_spec x u st vis' g' pruned_title T' Hk2) as (ts' & B1 & B2 & B3 & N2 & text' & B4 & B5).
  exists ts, ts', (caption_of x u st vis), (caption_of x u st vis'), text, text', (N1 + N2).
  split; [exact A1|]. split; [exact B1|]. split; [split; [exact A2|exact A3]|]. split; [split; [exact B2|intros n; rewrite Hr; apply B3]|].
  split. { intros n l Hl. destruct (Hk n) as (v & Ev); [exists l; exact Hl|]. exists v. split; [apply (Hm2 n l v Hl), Ev|apply caption_captioned, Ev]. }
  split. { intros n Hin. apply Hr in Hin. destruct (Hk2 n Hin) as (v & Ev). exists v. split; [exact Ev|apply caption_captioned, Ev]. }
  split; [exact A4|]. split; [exact B4|].
  assert (Em : marker g' = match ts' with [] => $"<no children>" ++ line_break | _ => [] end).
  { unfold marker. assert (Hc : forall n, In n (g_nodes g') <-> In n (tree_nodes (CTree root ts'))) by (intros n; rewrite Hr; symmetry; apply B3).
    assert (Hl : length (g_nodes g') = length (tree_nodes (CTree root ts'))).
    { apply Nat.le_antisymm; apply NoDup_incl_length; [exact (tl_nodes _ _ T')|intros n; apply Hc|exact B2|intros n; apply Hc]. }
    destruct ts' as [|[n cs] ts'].
    - cbn in Hl. destruct (g_nodes g') as [|a [|? ?]]; try discriminate Hl. reflexivity.
    - cbn in Hl. destruct (g_nodes g') as [|a [|? ?]]; try discriminate Hl. reflexivity. }
  intros sv sp fuel Hf. unfold inspect. rewrite H. fold g st. rewrite Hv.
  destruct sv; [rewrite A5 by lia|]; cbn [bind]; (destruct sp; [rewrite B5 by lia|]); cbn [bind]; rewrite ?Em; unfold marker; reflexivity.
Qed.

Lemma inspect_nothing u found implicit module_name x fuel sv sp :
  (forall g' contexts vis' warned b, process u found implicit module_name <> Done (Pruned g' contexts vis' warned b)) ->
  inspect fuel x u sv sp found implicit module_name = Printed [].
Proof. intros H. unfold inspect. destruct (process u found implicit module_name) as [[| |]| |]; try reflexivity. destruct (H _ _ _ _ _ eq_refl). Qed.

Lemma identifier_single s : identifier s -> single_line s.
Proof.
  intros (c & r & -> & Hc & Hr) [E|Hin].
  - subst c. vm_compute in Hc. discriminate Hc.
  - rewrite forallb_forall in Hr. specialize (Hr _ Hin). vm_compute in Hr. discriminate Hr.
Qed.

Lemma own_plain u i a : own_attributes u i a -> single_line (n_spelling (at_named a)).
Proof.
  intros (st & ds & Hi & Ha). destruct (d_skip (u_decls u i)) eqn:Es.
  - unfold insert in Hi. rewrite Es in Hi. injection Hi as <- <-. discriminate Ha.
  - destruct (insert_spelling _ _ _ _ _ Hi eq_refl Es) as (a' & ans & bad & Ha' & _ & _ & H). rewrite Ha in Ha'. injection Ha' as <-.
    destruct H as [->|H]; [intros []|apply identifier_single, H].
Qed.

Lemma spelling_plain u b : placed u -> build_graph u = Done (true, b) -> (forall n, single_line (u_name u n)) ->
  forall n a, lookup_attrs (bs_annotations b) n = Some a -> single_line (n_spelling (at_named a)).
Proof.
  intros P Hb Hu n a Ha. destruct (collect u) as [s|] eqn:Hc.
  2: { destruct (no_graph_iff u P) as (_ & H & _). apply H in Hc. congruence. }
  destruct (attributes_of_targets u P b s Hc Hb n) as (H1 & H2).
  assert (K : ~ ~ ((exists a0, relocates u a0 n) \/ (forall a0, ~ relocates u a0 n))) by (intros N; apply N; right; intros a0 H; apply N; left; exists a0; exact H).
  assert (K' : ~ ~ ((exists a0, encourages u a0 n) \/ (forall a0, ~ encourages u a0 n))) by (intros N; apply N; right; intros a0 H; apply N; left; exists a0; exact H).
  intros Hin. apply K. intros D. apply K'. intros D'. revert Hin. change (single_line (n_spelling (at_named a))).
  destruct D as [(a0 & Hr)|D].
  - destruct (H2 a0 (or_introl Hr)) as (y & z & Hy & Hz & _ & Hsp & _). rewrite Ha in Hy. injection Hy as <-.
    destruct Hr as (x & Hal & Hx). pose proof Hal as (_ & _ & _ & _ & Hown). rewrite (Hsp a0 x); [|exists x; split; assumption|exact Hown].
    pose proof (own_plain u a0 x Hown) as Hpl. destruct (n_spelling (at_named x)); [apply Hu|exact Hpl].
  - destruct D' as [(e & He)|D'].
    + destruct (H2 e (or_intror He)) as (y & z & Hy & Hz & _ & _ & Hsp & _). rewrite Ha in Hy. injection Hy as <-. rewrite (Hsp D). apply (own_plain u n z Hz).
    + rewrite (H1 D D') in Ha. destruct (collected_declarations u s (pl_sane u P) Hc) as (_ & _ & H & _).
      destruct (H n) as (st' & ds & a' & E1 & E2 & E3).
      * clear -Ha. induction (cs_annotations s) as [|[j y] l IH]; [discriminate|]. cbn in *. destruct (Nat.eqb_spec n j) as [->|]; [left; reflexivity|right; apply IH; exact Ha].
      * rewrite Ha in E3. injection E3 as <-. apply (own_plain u n a). exists st', ds. split; assumption.
Qed.

Lemma captioned_plain x u b n v s : placed u -> build_graph u = Done (true, b) -> plain_names x u -> captioned x u (bs_annotations b) n v s -> single_line s.
Proof.
  intros P Hb Hp (renamed & -> & H). destruct (Hp n) as (H1 & H2 & H3).
  assert (Hr : single_line renamed).
  { destruct H as [(-> & _)|(a & s' & Ha & Hn & _ & ->)]; [intros []|]. repeat (apply single_app; split); try (intros [E|E]; [discriminate E|]; cbn in E; decompose [or] E; try discriminate; contradiction).
    destruct Hn as [(_ & ->)|(_ & ->)]; [|exact H3]. apply (spelling_plain u b P Hb (fun m => proj2 (proj2 (Hp m))) n a Ha). }
  repeat (apply single_app; split); auto; try (destruct v); intros E; cbn in E; decompose [or] E; try discriminate; contradiction.
Qed.

Lemma outline_captions caption t : forall d e, In e (outline caption d t) -> exists n, In n (tree_nodes t) /\ snd e = caption n.
Proof.
  induction t as [n ts IH] using ctree_ind'. intros d e [<-|He]; [exists n; split; [left; reflexivity|reflexivity]|].
  apply in_flat_map in He as (t & Ht & He). destruct (IH t Ht (S d) e He) as (m & Hm & E). exists m. split; [right; apply in_flat_map; exists t; split; assumption|exact E].
Qed.

(** The text tells trees and captions. *)
Lemma text_tells title text ts ts' caption caption' :
  outlined title text (flat_map (outline caption 0) ts) -> outlined title text (flat_map (outline caption' 0) ts') ->
  (forall n, In n (flat_map tree_nodes ts) -> single_line (caption n)) -> (forall n, In n (flat_map tree_nodes ts') -> single_line (caption' n)) ->
  map (labelled caption) ts = map (labelled caption') ts'.
Proof.
  intros O1 O2 S1 S2. eapply (outline_injective caption caption' _ ts ts' 0 (le_n _)). apply (outlined_unique title text); auto.
  intros e [He|He]; apply in_flat_map in He as (t & Ht & He); destruct (outline_captions _ _ _ _ He) as (n & Hn & ->); [apply S1|apply S2]; apply in_flat_map; exists t; split; assumption.
Qed.
