(** Properties of the picture and PDF rules (C140-C152). *)
From Coq Require Import QArith Lia Permutation.
From Verif Require Import PyStr PyDict.
From Verif Require Import Model_Attach Spec_Attach Proofs_Attach.
Open Scope nat_scope.

(** ** Examples *)
Definition gif (name payload : str) : part := mkPart ($"image") ($"gif") (Some name) payload.
Definition png (name payload : str) : part := mkPart ($"image") ($"png") (Some name) payload.
Definition plain : part := mkPart ($"text") ($"plain") None ($"hello").
Definition pdf (name payload : str) : part := mkPart ($"application") ($"pdf") (Some name) payload.
(** A reader of pictures: "G" and "P" are pictures of 20x10 and 3x4, "E" makes it fail *)
Definition sample_open (s : str) : opened :=
  match s with
  | 71%N :: _ => Opened (mkSize 20 10)
  | 80%N :: _ => Opened (mkSize 3 4)
  | 69%N :: _ => Raises
  | _ => Bad
  end.
Definition sample_images : list part := [plain; gif ($"a.gif") ($"G"); png ($"b.png") ($"P"); gif ($"c.gif") ($"no picture")].
Definition same (s : str) : str := s.
Lemma same_no_collision P l : no_collision same P l.
Proof. intros p p' _ _ _ _ H. exact H. Qed.
Definition sample_info : info := mkInfo (Some ($"Ann")) None (Some ($"Writer")) (Some ($"Cheap pills")).
Definition image_obj (w h : nat) : xobject := mkObj (Some ($"/Image")) (Some w) (Some h).
(** A reader of PDF files: "E" is encrypted, "D" is a document with three images, the rest is not a PDF file *)
Definition sample_pdf (s : str) : document :=
  match s with
  | 69%N :: _ => Encrypted
  | 68%N :: _ => Document (Some sample_info) [Some [image_obj 10 20; mkObj (Some ($"/Form")) None None]; None; Some [image_obj 5 5; image_obj 1 1]]
  | _ => Unreadable
  end.

Definition loaded (l : list part) : images :=
  match load_images same sample_open l no_images with Some s => s | None => no_images end.
Definition loaded_pdfs (l : list part) : pdfs :=
  match load_pdfs same sample_pdf l no_pdfs with Some s => s | None => no_pdfs end.

(** ** C140: the number of pictures *)
(** Proved: for every type the rule compares the number of its pictures with the two limits.
    Missing from the full property: "all" when a picture has the type image/all, and a
    maximum that is a bare 0. *)
Theorem C140_count_partial : forall md5 open_image l s t lo hi n,
  no_collision md5 picture l -> load_images md5 open_image l no_images = Some s -> no_all t l -> real_limit hi ->
  sum_over (of_type t) one l n -> (image_count s t lo hi = true <-> at_least lo n /\ at_most hi n).
Proof. exact count_rule. Qed.
Print Assumptions C140_count_partial.
Example C140_ex : exists s, load_images same sample_open sample_images no_images = Some s /\
  no_all ($"all") sample_images /\ real_limit (Some (Quoted ($"2"))) /\ sum_over (of_type ($"gif")) one sample_images 2 /\
  image_count s ($"gif") (Quoted ($"2")) (Some (Quoted ($"2"))) = true /\ image_count s ($"all") (Num 4%Z) None = false.
Proof.
  exists (loaded sample_images). split; [vm_compute; reflexivity|]. split; [|split; [|split]].
  - intros _ p H. vm_compute in H. repeat (destruct H as [<-|H]; [intros _ E; vm_compute in E; discriminate|]). destruct H.
  - split; discriminate.
  - exact (sum_over_exists _ _ one (tyb_ok ($"gif")) sample_images).
  - split; reflexivity.
Qed.
(** One picture of the type image/all counts twice. *)
Theorem C140_all_refuted : forall md5 open_image name payload,
  open_image payload <> Raises ->
  exists s, load_images md5 open_image [mkPart ($"image") ($"all") name payload] no_images = Some s /\
    sum_over (of_type ($"all")) one [mkPart ($"image") ($"all") name payload] 1 /\
    image_count s ($"all") (Num 2%Z) (Some (Num 2%Z)) = true.
Proof.
  intros md5 o name payload H. cbn [load_images]. unfold extract_image, save_stats. cbn [p_main p_sub p_name p_payload].
  destruct (streqb_spec ($"image") ($"image")) as [_|]; [|congruence]. cbn [i_sizes no_images table dget].
  destruct (o payload) as [sz| |]; [| |congruence].
  - eexists. split; [reflexivity|]. split; [|reflexivity]. apply (so_yes _ one _ [] 0); [|constructor]. split; [reflexivity|left; reflexivity].
  - eexists. split; [reflexivity|]. split; [|reflexivity]. apply (so_yes _ one _ [] 0); [|constructor]. split; [reflexivity|left; reflexivity].
Qed.
Print Assumptions C140_all_refuted.
(** "Between 0 and 0 pictures", written without quotes, holds of every message. *)
Theorem C140_zero_refuted : forall s t, image_count s t (Num 0%Z) (Some (Num 0%Z)) = true.
Proof. intros s t. unfold image_count, in_range, zle. cbn. apply Z.leb_le. lia. Qed.
Print Assumptions C140_zero_refuted.

(** ** C141: the number of pixels *)
(** Every picture that can be read counts, copies included.  The same cases as in C140 are missing. *)
Theorem C141_coverage_partial : forall md5 open_image l s t lo hi n,
  no_collision md5 picture l -> load_images md5 open_image l no_images = Some s -> no_all t l -> real_limit hi ->
  sum_over (of_type t) (pixels open_image) l n -> (pixel_coverage s t lo hi = true <-> at_least lo n /\ at_most hi n).
Proof. exact coverage_rule. Qed.
Print Assumptions C141_coverage_partial.
Example C141_ex : exists s, load_images same sample_open (gif ($"again.gif") ($"G") :: sample_images) no_images = Some s /\
  pixel_coverage s ($"gif") (Quoted ($"400")) (Some (Quoted ($"400"))) = true /\
  pixel_coverage s ($"png") (Quoted ($"12")) (Some (Quoted ($"12"))) = true /\
  pixel_coverage s ($"jpeg") (Num 1%Z) None = false.
Proof. exists (loaded (gif ($"again.gif") ($"G") :: sample_images)). split; [vm_compute; reflexivity|]. split; [|split]; vm_compute; reflexivity. Qed.

(** ** C142: the sizes of pictures *)
Theorem C142_exact_all : forall md5 open_image l s h w,
  no_collision md5 picture l -> load_images md5 open_image l no_images = Some s ->
  (image_size_exact s ($"all") h w = true <->
   exists p sz, In p l /\ picture p /\ open_image (p_payload p) = Opened sz /\
     means h (Z.of_nat (height sz)) /\ means w (Z.of_nat (width sz))).
Proof.
  intros md5 o l s h w NC H. rewrite exact_values. split.
  - intros (sz & Hs & K). apply (sizes_all md5 o l s sz NC H) in Hs as (p & Hp & Pp & E). exists p, sz; auto.
  - intros (p & sz & Hp & Pp & E & K). exists sz. split; [|exact K]. apply (sizes_all md5 o l s sz NC H). exists p; auto.
Qed.
Print Assumptions C142_exact_all.
(** For one type, only the first of several pictures with the same bytes counts: a picture
    sent before under another type is not seen. *)
Theorem C142_exact_partial : forall md5 open_image l s t h w,
  no_collision md5 picture l -> load_images md5 open_image l no_images = Some s -> t <> $"all" ->
  (image_size_exact s t h w = true <->
   exists before p after sz, l = before ++ p :: after /\ picture p /\ p_sub p = t /\ first_copy before p /\
     open_image (p_payload p) = Opened sz /\ means h (Z.of_nat (height sz)) /\ means w (Z.of_nat (width sz))).
Proof.
  intros md5 o l s t h w NC H Ht. rewrite exact_values. split.
  - intros (sz & Hs & K). apply (sizes_typ md5 o l s t sz NC H Ht) in Hs as (b & p & a & E & Pp & E1 & E2 & F). exists b, p, a, sz; auto 10.
  - intros (b & p & a & sz & E & Pp & E1 & F & E2 & K). exists sz. split; [|exact K]. apply (sizes_typ md5 o l s t sz NC H Ht). exists b, p, a; auto 10.
Qed.
Print Assumptions C142_exact_partial.
(** When the same bytes never come under two types, every picture of the type counts. *)
Theorem C142_exact_one_type : forall md5 open_image l s t h w,
  no_collision md5 picture l -> load_images md5 open_image l no_images = Some s -> t <> $"all" ->
  (forall p p', In p l -> In p' l -> picture p -> picture p' -> p_payload p = p_payload p' -> p_sub p = p_sub p') ->
  (image_size_exact s t h w = true <->
   exists p sz, In p l /\ picture p /\ p_sub p = t /\ open_image (p_payload p) = Opened sz /\
     means h (Z.of_nat (height sz)) /\ means w (Z.of_nat (width sz))).
Proof.
  intros md5 o l s t h w NC H Ht HT. rewrite (C142_exact_partial md5 o l s t h w NC H Ht). split.
  - intros (b & p & a & sz & -> & Pp & E1 & _ & E2 & K). exists p, sz. split; [apply in_or_app; right; left; reflexivity|auto].
  - intros (p & sz & Hp & Pp & E1 & E2 & K).
    destruct (first_of l p Hp Pp) as (b & p' & a & -> & P' & E' & F).
    exists b, p', a, sz. split; [reflexivity|]. split; [exact P'|]. split.
    { rewrite <- E1. apply HT; auto; apply in_or_app; right; left; reflexivity. }
    split; [exact F|]. split; [now rewrite E'|exact K].
Qed.
Print Assumptions C142_exact_one_type.
Theorem C142_copy_refuted : exists s,
  load_images same sample_open [gif ($"a") ($"G"); png ($"b") ($"G")] no_images = Some s /\
  sample_open ($"G") = Opened (mkSize 20 10) /\
  image_size_exact s ($"gif") (Quoted ($"10")) (Quoted ($"20")) = true /\
  image_size_exact s ($"png") (Quoted ($"10")) (Quoted ($"20")) = false /\
  image_count s ($"png") (Num 1%Z) None = true.
Proof. exists (loaded [gif ($"a") ($"G"); png ($"b") ($"G")]). split; [vm_compute; reflexivity|]. repeat split; vm_compute; reflexivity. Qed.
Print Assumptions C142_copy_refuted.
(** The ranges of sizes *)
Theorem C142_range_all : forall md5 open_image l s minh minw maxh maxw,
  no_collision md5 picture l -> load_images md5 open_image l no_images = Some s ->
  readable_args minh minw maxh maxw -> real_limit maxh -> real_limit maxw ->
  (image_size_range s ($"all") minh minw maxh maxw = true <->
   exists p sz, In p l /\ picture p /\ open_image (p_payload p) = Opened sz /\ fits minh minw maxh maxw sz).
Proof.
  intros md5 o l s minh minw maxh maxw NC H R L1 L2. rewrite (range_rule _ _ _ _ _ _ R L1 L2). split.
  - intros (sz & Hs & K). apply (sizes_all md5 o l s sz NC H) in Hs as (p & Hp & Pp & E). exists p, sz; auto.
  - intros (p & sz & Hp & Pp & E & K). exists sz. split; [|exact K]. apply (sizes_all md5 o l s sz NC H). exists p; auto.
Qed.
Print Assumptions C142_range_all.
Theorem C142_range_partial : forall md5 open_image l s t minh minw maxh maxw,
  no_collision md5 picture l -> load_images md5 open_image l no_images = Some s -> t <> $"all" ->
  readable_args minh minw maxh maxw -> real_limit maxh -> real_limit maxw ->
  (image_size_range s t minh minw maxh maxw = true <->
   exists before p after sz, l = before ++ p :: after /\ picture p /\ p_sub p = t /\ first_copy before p /\
     open_image (p_payload p) = Opened sz /\ fits minh minw maxh maxw sz).
Proof.
  intros md5 o l s t minh minw maxh maxw NC H Ht R L1 L2. rewrite (range_rule _ _ _ _ _ _ R L1 L2). split.
  - intros (sz & Hs & K). apply (sizes_typ md5 o l s t sz NC H Ht) in Hs as (b & p & a & E & Pp & E1 & E2 & F). exists b, p, a, sz; auto 10.
  - intros (b & p & a & sz & E & Pp & E1 & F & E2 & K). exists sz. split; [|exact K]. apply (sizes_typ md5 o l s t sz NC H Ht). exists b, p, a; auto 10.
Qed.
Print Assumptions C142_range_partial.
(** A least width that is no number fits no picture. *)
Theorem C142_unreadable : forall s t minh minw maxh maxw, (forall z, ~ means minw z) -> image_size_range s t minh minw maxh maxw = false.
Proof. exact range_unreadable. Qed.
Print Assumptions C142_unreadable.
Example C142_ex : exists s, load_images same sample_open sample_images no_images = Some s /\
  readable_args (Num 10%Z) (Num 15%Z) (Some (Num 10%Z)) (Some (Quoted ($"20"))) /\
  image_size_exact s ($"all") (Quoted ($"4")) (Quoted ($"3")) = true /\
  image_size_exact s ($"all") (Quoted ($"3")) (Quoted ($"4")) = false /\
  image_size_range s ($"gif") (Num 10%Z) (Num 15%Z) (Some (Num 10%Z)) (Some (Quoted ($"20"))) = true /\
  image_size_range s ($"png") (Num 100%Z) (Num 150%Z) None None = false.
Proof.
  exists (loaded sample_images). split; [vm_compute; reflexivity|]. split.
  - split; [eexists; constructor|]. split; [eexists; constructor|]. split; intros h E; injection E as <-.
    + eexists; constructor.
    + exists 20%Z. constructor. vm_compute. reflexivity.
  - repeat split; vm_compute; reflexivity.
Qed.

Example C142_unreadable_ex : exists s, load_images same sample_open sample_images no_images = Some s /\
  (forall z, ~ means (Quoted ($"wide")) z) /\ image_size_range s ($"gif") (Num 10%Z) (Quoted ($"wide")) None None = false.
Proof.
  exists (loaded sample_images). split; [vm_compute; reflexivity|]. assert (N : forall z, ~ means (Quoted ($"wide")) z) by (intros z M; apply means_int in M; vm_compute in M; discriminate).
  split; [exact N|]. apply C142_unreadable, N.
Qed.

(** ** C143: the names of pictures *)
Theorem C143_named : forall md5 open_image l s n,
  no_collision md5 picture l -> load_images md5 open_image l no_images = Some s ->
  (image_named s n = true <-> exists p, In p l /\ picture p /\ p_name p = Some n).
Proof. exact named_rule. Qed.
Print Assumptions C143_named.
Example C143_ex : exists s, load_images same sample_open sample_images no_images = Some s /\
  image_named s ($"c.gif") = true /\ image_named s ($"C.gif") = false /\ image_named s [] = false.
Proof. exists (loaded sample_images). split; [vm_compute; reflexivity|]. repeat split; vm_compute; reflexivity. Qed.

(** ** C144: text against pixels *)
(** [n] pixels: the number of characters lies between [a] and [b] times [n]. *)
Theorem C144_ratio_partial : forall md5 open_image float_of l s text raw body t lo hi a b n,
  no_collision md5 picture l -> load_images md5 open_image l no_images = Some s -> no_all t l ->
  sum_over (of_type t) (pixels open_image) l n -> n <> 0 -> means_ratio float_of lo a -> means_ratio float_of hi b -> real_ratio hi ->
  (image_to_text_ratio float_of s text raw body t lo (Some hi) = true <->
   (a * inject_Z (Z.of_nat n) <= inject_Z (Z.of_nat (length (if body then text else raw))) <= b * inject_Z (Z.of_nat n))%Q).
Proof. exact ratio_rule. Qed.
Print Assumptions C144_ratio_partial.
(** Without a maximum: at least [a] times [n] *)
Theorem C144_at_least_partial : forall md5 open_image float_of l s text raw body t lo a n,
  no_collision md5 picture l -> load_images md5 open_image l no_images = Some s -> no_all t l ->
  sum_over (of_type t) (pixels open_image) l n -> n <> 0 -> means_ratio float_of lo a ->
  (image_to_text_ratio float_of s text raw body t lo None = true <->
   (a * inject_Z (Z.of_nat n) <= inject_Z (Z.of_nat (length (if body then text else raw))))%Q).
Proof. exact ratio_least. Qed.
Print Assumptions C144_at_least_partial.
(** A message without any picture is treated as one with a single pixel: a rule for
    little picture and much text matches it. *)
Theorem C144_no_picture_refuted : forall md5 open_image float_of l s (text raw : str) (body : bool) t a,
  load_images md5 open_image l no_images = Some s -> (forall p, In p l -> ~ picture p) ->
  (a <= inject_Z (Z.of_nat (length (if body then text else raw))))%Q ->
  image_to_text_ratio float_of s text raw body t (Num a) None = true.
Proof.
  intros md5 o f l s text raw body t a H N Ha.
  assert (E : s = no_images).
  { clear Ha. revert H. generalize no_images as s0. induction l as [|p l IH]; intros s0 H; [now injection H as <-|].
    cbn [load_images] in H. unfold extract_image in H. destruct (streqb_spec (p_main p) ($"image")) as [K|_].
    - exfalso. apply (N p); [left; reflexivity|exact K].
    - apply IH; [intros x Hx; apply N; right; exact Hx|exact H]. }
  subst s. unfold image_to_text_ratio. cbn [no_images i_coverage value_of dget Nat.eqb rat_of rat_truthy]. now apply Qle_bool_iff.
Qed.
Print Assumptions C144_no_picture_refuted.
Example C144_ex : exists s, load_images same sample_open sample_images no_images = Some s /\
  sum_over (of_type ($"gif")) (pixels sample_open) sample_images 200 /\
  image_to_text_ratio (fun _ => None) s ($"twenty characters...") [] true ($"gif") (Num 0%Q) (Some (Num (1 # 10))) = true /\
  image_to_text_ratio (fun _ => None) s ($"twenty characters...") [] true ($"png") (Num 0%Q) (Some (Num (1 # 10))) = false /\
  image_to_text_ratio (fun _ => Some (1 # 100)%Q) s ($"twenty characters...") [] true ($"gif") (Num 0%Q) (Some (Quoted ($"0.01"))) = false.
Proof.
  exists (loaded sample_images). split; [vm_compute; reflexivity|]. split; [|repeat split; vm_compute; reflexivity].
  replace 200 with (sumb (tyb ($"gif")) (pixels sample_open) sample_images) by (vm_compute; reflexivity).
  apply (sum_over_exists _ _ _ (tyb_ok ($"gif"))).
Qed.

(** ** C145: a picture that cannot be read *)
(** Loading fails exactly when the reader raises something else than the four expected
    errors; the property -- no attachment stops the check of a message -- does not hold. *)
Theorem C145_loading_partial : forall md5 open_image l, no_collision md5 picture l ->
  (load_images md5 open_image l no_images = None <-> exists p, In p l /\ picture p /\ open_image (p_payload p) = Raises).
Proof. exact load_none. Qed.
Print Assumptions C145_loading_partial.
Theorem C145_loading_refuted : forall md5 open_image before after p,
  no_collision md5 picture (before ++ p :: after) -> picture p -> open_image (p_payload p) = Raises ->
  load_images md5 open_image (before ++ p :: after) no_images = None.
Proof. intros md5 o b a p NC Pp E. apply load_none; [exact NC|]. exists p. split; [apply in_or_app; right; left; reflexivity|auto]. Qed.
Print Assumptions C145_loading_refuted.
Example C145_ex : load_images same sample_open [gif ($"a") ($"G"); gif ($"b") ($"E")] no_images = None /\
  load_images same sample_open [gif ($"a") ($"G"); gif ($"b") ($"nothing")] no_images <> None.
Proof. split; [reflexivity|discriminate]. Qed.

(** ** C146: the number of PDF files *)
(** Missing: a maximum that is a bare 0, and limits in quotes. *)
Theorem C146_count_partial : forall md5 read_pdf l s lo hi n,
  no_collision md5 pdf_part l -> load_pdfs md5 read_pdf l no_pdfs = Some s -> real_limit hi ->
  sum_over pdf_part one l n -> (pdf_count s lo hi = true <-> num_at_least lo n /\ num_at_most hi n).
Proof. exact pcount_rule. Qed.
Print Assumptions C146_count_partial.
Theorem C146_zero_refuted : forall s, pdf_count s (Num 0%Z) (Some (Num 0%Z)) = true.
Proof. intros s. unfold pdf_count, pdf_range, zle. cbn. rewrite Bool.andb_true_r. apply Z.leb_le. lia. Qed.
Print Assumptions C146_zero_refuted.
(** The notation of the picture rules never matches. *)
Theorem C146_quoted_refuted : forall s lo hi,
  pdf_count s (Quoted lo) hi = false /\ pdf_image_count s (Quoted lo) hi = false /\ pdf_pixel_coverage s (Quoted lo) hi = false /\
  pdf_is_empty_body s (Quoted lo) = false.
Proof. intros s lo hi. repeat split. unfold pdf_is_empty_body. destruct (d_bytes s); reflexivity. Qed.
Print Assumptions C146_quoted_refuted.
Definition sample_pdfs : list part := [plain; pdf ($"one.pdf") ($"D1"); pdf ($"two.pdf") ($"E"); gif ($"a") ($"G")].
Example C146_ex : exists s, load_pdfs same sample_pdf sample_pdfs no_pdfs = Some s /\
  sum_over pdf_part one sample_pdfs 2 /\
  pdf_count s (Num 1%Z) (Some (Num 2%Z)) = true /\ pdf_count s (Num 3%Z) None = false /\ pdf_count s (Num 0%Z) (Some (Num 1%Z)) = false.
Proof.
  exists (loaded_pdfs sample_pdfs). split; [vm_compute; reflexivity|]. split; [exact (sum_over_exists _ _ one pdfb_ok sample_pdfs)|]. repeat split; vm_compute; reflexivity.
Qed.

(** ** C147: the pictures inside PDF files *)
Theorem C147_images_partial : forall md5 read_pdf l s lo hi n,
  no_collision md5 pdf_part l -> load_pdfs md5 read_pdf l no_pdfs = Some s -> real_limit hi ->
  sum_over pdf_part (pictures_in read_pdf) l n -> (pdf_image_count s lo hi = true <-> num_at_least lo n /\ num_at_most hi n).
Proof. exact pimage_rule. Qed.
Print Assumptions C147_images_partial.
Theorem C147_pixels_partial : forall md5 read_pdf l s lo hi n,
  no_collision md5 pdf_part l -> load_pdfs md5 read_pdf l no_pdfs = Some s -> real_limit hi ->
  sum_over pdf_part (surface_in read_pdf) l n -> (pdf_pixel_coverage s lo hi = true <-> num_at_least lo n /\ num_at_most hi n).
Proof. exact ppixel_rule. Qed.
Print Assumptions C147_pixels_partial.
(** The figures are not kept once per file: a file sent twice counts twice. *)
Theorem C147_copies_refuted : exists s,
  load_pdfs same sample_pdf [pdf ($"one.pdf") ($"D"); pdf ($"copy.pdf") ($"D")] no_pdfs = Some s /\
  pictures_in sample_pdf (pdf ($"one.pdf") ($"D")) = 3 /\
  pdf_image_count s (Num 6%Z) (Some (Num 6%Z)) = true /\ pdf_is_empty_body s (Num 1%Z) = false.
Proof. exists (loaded_pdfs [pdf ($"one.pdf") ($"D"); pdf ($"copy.pdf") ($"D")]). split; [vm_compute; reflexivity|]. repeat split; vm_compute; reflexivity. Qed.
Print Assumptions C147_copies_refuted.
Example C147_ex : exists s, load_pdfs same sample_pdf sample_pdfs no_pdfs = Some s /\
  sum_over pdf_part (surface_in sample_pdf) sample_pdfs 226 /\
  pdf_image_count s (Num 3%Z) (Some (Num 3%Z)) = true /\ pdf_pixel_coverage s (Num 200%Z) (Some (Num 225%Z)) = false.
Proof.
  exists (loaded_pdfs sample_pdfs). split; [vm_compute; reflexivity|]. split; [|split; vm_compute; reflexivity].
  replace 226 with (sumb pdfb (surface_in sample_pdf) sample_pdfs) by (vm_compute; reflexivity).
  apply (sum_over_exists _ _ _ pdfb_ok).
Qed.

(** ** C148: names and digests of PDF files *)
Theorem C148_named : forall md5 read_pdf l s n,
  no_collision md5 pdf_part l -> load_pdfs md5 read_pdf l no_pdfs = Some s ->
  (pdf_named s n = true <-> exists p, In p l /\ pdf_part p /\ p_name p = Some n).
Proof. exact pnamed_rule. Qed.
Print Assumptions C148_named.
Theorem C148_md5 : forall md5 read_pdf l s h,
  no_collision md5 pdf_part l -> load_pdfs md5 read_pdf l no_pdfs = Some s ->
  (pdf_match_md5 s h = true <-> exists p, In p l /\ pdf_part p /\ md5 (p_payload p) = h).
Proof. exact pmd5_rule. Qed.
Print Assumptions C148_md5.
(** For a message whose PDF files all have a name, in whatever order the names are gone through. *)
Theorem C148_regex_partial : forall md5 read_pdf l s names hit,
  no_collision md5 pdf_part l -> load_pdfs md5 read_pdf l no_pdfs = Some s ->
  (forall n, In n names <-> In n (d_names s)) -> (forall p, In p l -> pdf_part p -> p_name p <> None) ->
  (pdf_name_regex names hit = true <-> exists p n, In p l /\ pdf_part p /\ p_name p = Some n /\ hit n = true).
Proof. exact pregex_rule. Qed.
Print Assumptions C148_regex_partial.
(** With a file that has no name the answer depends on the order. *)
Theorem C148_unnamed_refuted : exists s hit,
  load_pdfs same sample_pdf [pdf ($"offer.pdf") ($"D"); mkPart ($"application") ($"pdf") None ($"E")] no_pdfs = Some s /\
  exists names names', Permutation names names' /\ Permutation names (d_names s) /\
    pdf_name_regex names hit = true /\ pdf_name_regex names' hit = false.
Proof.
  exists (loaded_pdfs [pdf ($"offer.pdf") ($"D"); mkPart ($"application") ($"pdf") None ($"E")]). exists (fun n => contains ($"offer") n). split; [vm_compute; reflexivity|].
  exists [Some ($"offer.pdf"); None], [None; Some ($"offer.pdf")]. split; [constructor|]. split; [constructor|].
  split; vm_compute; reflexivity.
Qed.
Print Assumptions C148_unnamed_refuted.
Example C148_ex : exists s, load_pdfs same sample_pdf sample_pdfs no_pdfs = Some s /\
  (forall p, In p sample_pdfs -> pdf_part p -> p_name p <> None) /\
  pdf_named s ($"two.pdf") = true /\ pdf_named s ($"a") = false /\ pdf_match_md5 s ($"D1") = true /\
  pdf_name_regex (d_names s) (fun n => startswith ($"one") n) = true /\ pdf_name_regex (d_names s) (fun n => startswith ($"a") n) = false.
Proof.
  exists (loaded_pdfs sample_pdfs). split; [vm_compute; reflexivity|]. split.
  - intros p H. vm_compute in H. repeat (destruct H as [<-|H]; [intros [E1 E2] E; vm_compute in E1, E2, E; discriminate|]). destruct H.
  - repeat split; vm_compute; reflexivity.
Qed.

(** ** C149: the properties of PDF documents *)
(** What the rule says: some property of some document is found, whichever was asked for. *)
Theorem C149_details_partial : forall md5 read_pdf l s detail hit,
  no_collision md5 pdf_part l -> load_pdfs md5 read_pdf l no_pdfs = Some s ->
  (pdf_match_details s detail hit = true <->
   exists p k v, In p l /\ pdf_part p /\ has_detail (read_pdf (p_payload p)) k v /\ hit v = true).
Proof. exact pdetails_rule. Qed.
Print Assumptions C149_details_partial.
(** A title makes a rule about the author match. *)
Theorem C149_detail_refuted : exists s hit,
  load_pdfs same sample_pdf [pdf ($"one.pdf") ($"D")] no_pdfs = Some s /\
  pdf_match_details s ($"author") hit = true /\
  (forall p v, In p [pdf ($"one.pdf") ($"D")] -> has_detail (sample_pdf (p_payload p)) ($"author") v -> hit v = false).
Proof.
  exists (loaded_pdfs [pdf ($"one.pdf") ($"D")]). exists (fun v => contains ($"pills") v). split; [vm_compute; reflexivity|]. split; [vm_compute; reflexivity|].
  intros p v [<-|[]] (i & ps & E & H). vm_compute in E. injection E as <- <-.
  destruct H as [[_ ->]|[[K _]|[[K _]|[K _]]]]; [vm_compute; reflexivity|discriminate|discriminate|discriminate].
Qed.
Print Assumptions C149_detail_refuted.

(** ** C150: encrypted PDF files *)
Theorem C150_encrypted : forall md5 read_pdf l s,
  no_collision md5 pdf_part l -> load_pdfs md5 read_pdf l no_pdfs = Some s ->
  (pdf_is_encrypted s = true <-> exists p, In p l /\ pdf_part p /\ read_pdf (p_payload p) = Encrypted).
Proof. exact pencrypted_rule. Qed.
Print Assumptions C150_encrypted.
Example C150_ex : exists s s', load_pdfs same sample_pdf sample_pdfs no_pdfs = Some s /\ pdf_is_encrypted s = true /\
  load_pdfs same sample_pdf [pdf ($"one.pdf") ($"D")] no_pdfs = Some s' /\ pdf_is_encrypted s' = false.
Proof. eexists. eexists. split; [reflexivity|]. split; [reflexivity|]. split; reflexivity. Qed.

(** ** C151: nearly empty PDF files *)
Theorem C151_empty : forall md5 read_pdf l s b n,
  no_collision md5 pdf_part l -> load_pdfs md5 read_pdf l no_pdfs = Some s -> sum_over pdf_part bytes_in l n ->
  (pdf_is_empty_body s (Num b) = true <-> (exists p, In p l /\ pdf_part p) /\ (Z.of_nat n <= b)%Z).
Proof. exact pempty_rule. Qed.
Print Assumptions C151_empty.
Example C151_ex : exists s, load_pdfs same sample_pdf sample_pdfs no_pdfs = Some s /\
  sum_over pdf_part bytes_in sample_pdfs 3 /\ pdf_is_empty_body s (Num 3%Z) = true /\ pdf_is_empty_body s (Num 2%Z) = false /\
  pdf_is_empty_body no_pdfs (Num 2%Z) = false.
Proof.
  exists (loaded_pdfs sample_pdfs). split; [vm_compute; reflexivity|]. split; [exact (sum_over_exists _ _ bytes_in pdfb_ok sample_pdfs)|]. repeat split; vm_compute; reflexivity.
Qed.

(** ** C152: a PDF file that cannot be read *)
Theorem C152_loading_partial : forall md5 read_pdf l,
  load_pdfs md5 read_pdf l no_pdfs = None <-> exists p, In p l /\ pdf_part p /\ broken (read_pdf (p_payload p)).
Proof. exact pload_none. Qed.
Print Assumptions C152_loading_partial.
(** One part declared application/pdf that is no PDF file, anywhere in the message, and the message is not checked. *)
Theorem C152_loading_refuted : forall md5 read_pdf before after p,
  pdf_part p -> read_pdf (p_payload p) = Unreadable -> load_pdfs md5 read_pdf (before ++ p :: after) no_pdfs = None.
Proof.
  intros md5 r b a p Pp E. apply pload_none. exists p. split; [apply in_or_app; right; left; reflexivity|].
  split; [exact Pp|]. left. exact E.
Qed.
Print Assumptions C152_loading_refuted.
Example C152_ex : load_pdfs same sample_pdf [pdf ($"x") ($"not a pdf")] no_pdfs = None /\
  load_pdfs same (fun _ => Document None [Some [mkObj (Some ($"/Image")) None (Some 3)]]) [pdf ($"x") ($"D")] no_pdfs = None.
Proof. split; reflexivity. Qed.
