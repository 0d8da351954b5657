(** Model of oa/plugins/image_info.py and oa/plugins/pdf_info.py: what the two plugins keep
    of the attachments of a message, and the rules that read it.  The libraries that read
    pictures and PDF files, and MD5, are functions that the theorems range over.
    A rule that raises does not match (oa/rules/eval_.py:66-73).  Floats are rationals.
    Not modelled: [image_name_regex] and [pdf_match_fuzzy_md5], which are not registered as
    rules (image_info.py:29-34, pdf_info.py:25-35), and the counts of invalid images, which
    nothing reads.  Definitions only. *)
From Coq Require Import QArith.
From Verif Require Import PyStr PyDict.
From Verif Require Model_Rules.
Open Scope nat_scope.

(** A part as the hook of oa/message.py:471 gives it *)
Record part := mkPart {
  p_main : str; p_sub : str;         (** [get_content_maintype/subtype()], lower case *)
  p_name : option str;               (** [get_param("name")]; [None] also for an encoded one (a tuple) *)
  p_payload : str                    (** [get_payload(decode=True)] *)
}.
(** An argument of a rule: a number, or a text in quotes (oa/rules/eval_.py:41-43) *)
Inductive arg (A : Type) := Num (a : A) | Quoted (s : str).
Arguments Num {A}. Arguments Quoted {A}.

(** ** Pictures.  For oa/plugins/image_info.py:37-52. *)
Record size := mkSize { width : nat; height : nat }.
(** [PIL.Image.open]: the size; one of the four errors of line 45; any other error.
    oa/plugins/image_info.py:37-52. *)
Inductive opened := Opened (s : size) | Bad | Raises.

(** What is kept for one message (oa/plugins/image_info.py:54-125): the names, the counts, the areas and the sizes *)
Record images := mkImages {
  i_names : list (option str); i_counts : dict nat; i_coverage : dict nat; i_sizes : dict (dict size) }.
(** oa/plugins/image_info.py:54-125. *)
Definition no_images : images := mkImages [] [] [] [].

Section Images.
Variable md5 : str -> str.
Variable open_image : str -> opened.

(** [counts[k] += by] for a [defaultdict(int)].  For oa/plugins/image_info.py:69-79,109-117. *)
Definition incr (k : str) (by_ : nat) (d : dict nat) : dict nat :=
  dset k (match dget k d with Some n => n | None => 0 end + by_) d.
(** oa/plugins/image_info.py:69-79,109-117: the cumulative number, then the one of the type *)
Definition update (subtype : str) (by_ : nat) (d : dict nat) : dict nat :=
  incr subtype by_ (incr ($"all") by_ d).
(** [sizes[k]] for a [defaultdict(dict)].  For oa/plugins/image_info.py:127-152. *)
Definition table (k : str) (d : dict (dict size)) : dict size := match dget k d with Some t => t | None => [] end.
(** For oa/plugins/image_info.py:127-152. *)
Definition area (s : size) : nat := width s * height s.
(** oa/plugins/image_info.py:127-152 *)
Definition save_stats (payload subtype : str) (s : images) : option images :=
  let id := md5 payload in
  match dget id (table ($"all") (i_sizes s)) with
  | Some img => Some (mkImages (i_names s) (i_counts s) (update subtype (area img) (i_coverage s)) (i_sizes s))
  | None =>
      match open_image payload with
      | Raises => None
      | Bad => Some s
      | Opened img =>
          let s1 := dset ($"all") (dset id img (table ($"all") (i_sizes s))) (i_sizes s) in
          let s2 := dset subtype (dset id img (table subtype s1)) s1 in
          Some (mkImages (i_names s) (i_counts s) (update subtype (area img) (i_coverage s)) s2)
      end
  end.
(** oa/plugins/image_info.py:162-172; the set of names as a list in some order *)
Definition extract_image (p : part) (s : images) : option images :=
  if streqb (p_main p) ($"image") then
    save_stats (p_payload p) (p_sub p)
      (mkImages (p_name p :: i_names s) (update (p_sub p) 1 (i_counts s)) (i_coverage s) (i_sizes s))
  else Some s.
(** oa/message.py:450-471: every part in order; an error of a hook ends the loading of the message *)
Fixpoint load_images (l : list part) (s : images) : option images :=
  match l with
  | [] => Some s
  | p :: r => match extract_image p s with Some s' => load_images r s' | None => None end
  end.
End Images.

(** [int(x)] and [if x:] of an argument.  For oa/plugins/image_info.py:203-208,214-218. *)
Definition int_of (a : arg Z) : option Z := match a with Num z => Some z | Quoted s => Model_Rules.py_int s end.
(** For oa/plugins/image_info.py:203-208,214-218. *)
Definition truthy (a : option (arg Z)) : bool :=
  match a with
  | None => false
  | Some (Num z) => negb (z =? 0)%Z
  | Some (Quoted s) => match s with [] => false | _ => true end
  end.
(** For oa/plugins/image_info.py:203-208,214-218. *)
Definition zle (a b : Z) : bool := (a <=? b)%Z.
(** [min <= n] and, if there is a maximum, [n <= max] (oa/plugins/image_info.py:203-208,214-218) *)
Definition in_range (n : nat) (lo : arg Z) (hi : option (arg Z)) : bool :=
  match int_of lo with
  | None => false
  | Some a =>
      if truthy hi then
        match hi with
        | Some h => match int_of h with Some b => zle a (Z.of_nat n) && zle (Z.of_nat n) b | None => false end
        | None => false
        end
      else zle a (Z.of_nat n)
  end.
(** For oa/plugins/image_info.py:61-67,198-208. *)
Definition value_of (k : str) (d : dict nat) : nat := match dget k d with Some n => n | None => 0 end.
(** oa/plugins/image_info.py:61-67,198-208 *)
Definition image_count (s : images) (typ : str) (lo : arg Z) (hi : option (arg Z)) : bool :=
  in_range (value_of typ (i_counts s)) lo hi.
(** oa/plugins/image_info.py:119-125,210-218 *)
Definition pixel_coverage (s : images) (typ : str) (lo : arg Z) (hi : option (arg Z)) : bool :=
  in_range (value_of typ (i_coverage s)) lo hi.
(** oa/plugins/image_info.py:174-176 *)
Definition opt_streqb (a b : option str) : bool :=
  match a, b with Some x, Some y => streqb x y | None, None => true | _, _ => false end.
(** oa/plugins/image_info.py:174-176. *)
Definition image_named (s : images) (name : str) : bool := existsb (opt_streqb (Some name)) (i_names s).
(** oa/plugins/image_info.py:154-160 *)
Definition get_sizes (s : images) (typ : str) : list size := dvalues (table typ (i_sizes s)).
(** oa/plugins/image_info.py:187-196; the height comes before the width *)
Definition image_size_exact (s : images) (typ : str) (h w : arg Z) : bool :=
  match int_of h, int_of w with
  | Some h, Some w => existsb (fun i => (Z.of_nat (width i) =? w)%Z && (Z.of_nat (height i) =? h)%Z) (get_sizes s typ)
  | _, _ => false
  end.
(** oa/plugins/image_info.py:220-240.  [None]: the loop raises. *)
Definition too_small (n : nat) (lo : arg Z) : option bool :=
  match int_of lo with Some a => Some (Z.of_nat n <? a)%Z | None => None end.
(** For oa/plugins/image_info.py:220-240. *)
Definition too_big (n : nat) (hi : option (arg Z)) : option bool :=
  if truthy hi then
    match hi with
    | Some h => match int_of h with Some b => Some (b <? Z.of_nat n)%Z | None => None end
    | None => Some false
    end
  else Some false.
(** For oa/plugins/image_info.py:220-240. *)
Fixpoint range_loop (l : list size) (minh minw : arg Z) (maxh maxw : option (arg Z)) : option bool :=
  match l with
  | [] => Some false
  | i :: r =>
      match too_small (width i) minw with
      | None => None
      | Some true => range_loop r minh minw maxh maxw
      | Some false =>
          match too_small (height i) minh with
          | None => None
          | Some true => range_loop r minh minw maxh maxw
          | Some false =>
              match too_big (width i) maxw with
              | None => None
              | Some true => range_loop r minh minw maxh maxw
              | Some false =>
                  match too_big (height i) maxh with
                  | None => None
                  | Some true => range_loop r minh minw maxh maxw
                  | Some false => Some true
                  end
              end
          end
      end
  end.
(** oa/plugins/image_info.py:220-240. *)
Definition image_size_range (s : images) (typ : str) (minh minw : arg Z) (maxh maxw : option (arg Z)) : bool :=
  match range_loop (get_sizes s typ) minh minw maxh maxw with Some b => b | None => false end.

(** 242-260.  [float_of]: the number that [float] makes of a text.  [body]: whether the rule
    is a body rule; then the rendered text counts, and the raw text otherwise. *)
Section Ratio.
Variable float_of : str -> option Q.
(** oa/plugins/image_info.py:242-260. *)
Definition rat_of (a : arg Q) : option Q := match a with Num x => Some x | Quoted s => float_of s end.
(** oa/plugins/image_info.py:242-260. *)
Definition rat_truthy (a : option (arg Q)) : bool :=
  match a with
  | None => false
  | Some (Num x) => negb (Qeq_bool x 0)
  | Some (Quoted s) => match s with [] => false | _ => true end
  end.
(** oa/plugins/image_info.py:242-260. *)
Definition q (n : nat) : Q := inject_Z (Z.of_nat n).
(** oa/plugins/image_info.py:242-260. *)
Definition image_to_text_ratio (s : images) (text raw_text : str) (body : bool)
    (typ : str) (lo : arg Q) (hi : option (arg Q)) : bool :=
  let len := length (if body then text else raw_text) in
  let cov := value_of typ (i_coverage s) in
  let ratio := if Nat.eqb cov 0 then q len else (q len / q cov)%Q in
  match rat_of lo with
  | None => false
  | Some a =>
      if rat_truthy hi then
        match hi with
        | Some h => match rat_of h with Some b => Qle_bool a ratio && Qle_bool ratio b | None => false end
        | None => false
        end
      else Qle_bool a ratio
  end.
End Ratio.

(** ** PDF files *)
(** An object of a page (oa/plugins/pdf_info.py:328-336): its "/Subtype", and "/Width" and "/Height"; [None] when missing *)
Record xobject := mkObj { o_subtype : option str; o_width : option nat; o_height : option nat }.
(** A page: "/XObject" of its "/Resources"; [None] when one of the two is missing (oa/plugins/pdf_info.py:322-327) *)
Definition page := option (list xobject).
(** [getDocumentInfo()]: author, creator, producer and title.
    For oa/plugins/pdf_info.py:297-308. *)
Record info := mkInfo { d_author : option str; d_creator : option str; d_producer : option str; d_title : option str }.
(** [PdfFileReader]: an error, an encrypted document, or the document.
    oa/plugins/pdf_info.py:297-308. *)
Inductive document := Unreadable | Encrypted | Document (i : option info) (pages : list page).

(** What is kept for one message; [d_bytes] is [None] when there was no PDF file.
    For oa/plugins/pdf_info.py:297-336. *)
Record pdfs := mkPdfs {
  d_names : list (option str); d_count : nat; d_hashes : list str; d_bytes : option nat;
  d_encrypted : list bool; d_details : dict (dict str); d_images : nat; d_pixels : nat }.
(** oa/plugins/pdf_info.py:297-336. *)
Definition no_pdfs : pdfs := mkPdfs [] 0 [] None [] [] 0 0.

Section Pdfs.
Variable md5 : str -> str.
Variable read_pdf : str -> document.

(** oa/plugins/pdf_info.py:219-232; "" for a missing value *)
Definition update_detail (id k : str) (v : option str) (d : dict (dict str)) : dict (dict str) :=
  dset id (dset k (match v with Some x => x | None => [] end) (match dget id d with Some t => t | None => [] end)) d.
(** oa/plugins/pdf_info.py:309-315 *)
Definition update_info (id : str) (i : option info) (d : dict (dict str)) : dict (dict str) :=
  match i with
  | None => d
  | Some i => update_detail id ($"title") (d_title i) (update_detail id ($"producer") (d_producer i)
                (update_detail id ($"creator") (d_creator i) (update_detail id ($"author") (d_author i) d)))
  end.
(** oa/plugins/pdf_info.py:328-336: number of images and area; a missing key raises *)
Fixpoint objects (l : list xobject) (acc : nat * nat) : option (nat * nat) :=
  match l with
  | [] => Some acc
  | o :: r =>
      match o_subtype o with
      | None => None
      | Some t =>
          if streqb t ($"/Image") then
            match o_width o, o_height o with
            | Some w, Some h => objects r (fst acc + 1, snd acc + w * h)
            | _, _ => None
            end
          else objects r acc
      end
  end.
(** oa/plugins/pdf_info.py:316-336 *)
Fixpoint pages (l : list page) (acc : nat * nat) : option (nat * nat) :=
  match l with
  | [] => Some acc
  | None :: r => pages r acc
  | Some os :: r => match objects os acc with Some acc' => pages r acc' | None => None end
  end.
(** oa/plugins/pdf_info.py:297-336 *)
Definition save_pdf (payload : str) (s : pdfs) : option pdfs :=
  let id := md5 payload in
  let hashes := id :: d_hashes s in
  let bytes := Some (match d_bytes s with Some n => n | None => 0 end + length payload) in
  match read_pdf payload with
  | Unreadable => None
  | Encrypted =>
      Some (mkPdfs (d_names s) (d_count s) hashes bytes (true :: d_encrypted s) (d_details s) (d_images s) (d_pixels s))
  | Document i ps =>
      match pages ps (d_images s, d_pixels s) with
      | None => None
      | Some (n, a) =>
          Some (mkPdfs (d_names s) (d_count s) hashes bytes (false :: d_encrypted s) (update_info id i (d_details s)) n a)
      end
  end.
(** oa/plugins/pdf_info.py:338-344 *)
Definition extract_pdf (p : part) (s : pdfs) : option pdfs :=
  if streqb (p_main p) ($"application") && streqb (p_sub p) ($"pdf") then
    save_pdf (p_payload p)
      (mkPdfs (p_name p :: d_names s) (d_count s + 1) (d_hashes s) (d_bytes s) (d_encrypted s) (d_details s)
              (d_images s) (d_pixels s))
  else Some s.
(** oa/plugins/pdf_info.py:338-344. *)
Fixpoint load_pdfs (l : list part) (s : pdfs) : option pdfs :=
  match l with
  | [] => Some s
  | p :: r => match extract_pdf p s with Some s' => load_pdfs r s' | None => None end
  end.
End Pdfs.

(** [minimum <= n <= (maximum or float("inf"))] (oa/plugins/pdf_info.py:65,95,126): an integer and a text cannot
    be compared, the second comparison is made only if the first holds, and "" counts as no maximum. *)
Definition pdf_range (n : nat) (lo : arg Z) (hi : option (arg Z)) : bool :=
  match lo with
  | Quoted _ => false
  | Num a =>
      zle a (Z.of_nat n) &&
      (if truthy hi then match hi with Some (Num b) => zle (Z.of_nat n) b | _ => false end else true)
  end.
(** oa/plugins/pdf_info.py:54-65. *)
Definition pdf_count (s : pdfs) := pdf_range (d_count s).
(** oa/plugins/pdf_info.py:83-95. *)
Definition pdf_image_count (s : pdfs) := pdf_range (d_images s).
(** oa/plugins/pdf_info.py:115-126. *)
Definition pdf_pixel_coverage (s : pdfs) := pdf_range (d_pixels s).
(** oa/plugins/pdf_info.py:143-152 *)
Definition pdf_named (s : pdfs) (name : str) : bool := existsb (opt_streqb (Some name)) (d_names s).
(** oa/plugins/pdf_info.py:154-168.  [hit]: whether the expression is found in a text.  The search of a missing
    name raises ([None]).  The names are a set; [names] is the order in which it is gone through. *)
Fixpoint name_loop (hit : str -> bool) (names : list (option str)) : option bool :=
  match names with
  | [] => Some false
  | Some n :: r => if hit n then Some true else name_loop hit r
  | None :: _ => None
  end.
(** oa/plugins/pdf_info.py:154-168. *)
Definition pdf_name_regex (names : list (option str)) (hit : str -> bool) : bool :=
  match name_loop hit names with Some b => b | None => false end.
(** oa/plugins/pdf_info.py:184-191 *)
Definition pdf_match_md5 (s : pdfs) (h : str) : bool := mem_str h (d_hashes s).
(** oa/plugins/pdf_info.py:234-255: [detail] is not used *)
Definition pdf_match_details (s : pdfs) (detail : str) (hit : str -> bool) : bool :=
  existsb (fun e => existsb (fun kv => hit (snd kv)) (snd e)) (d_details s).
(** oa/plugins/pdf_info.py:265-273 *)
Definition pdf_is_encrypted (s : pdfs) : bool := existsb (fun b => b) (d_encrypted s).
(** oa/plugins/pdf_info.py:284-295 *)
Definition pdf_is_empty_body (s : pdfs) (byts : arg Z) : bool :=
  match d_bytes s with
  | None => false
  | Some n => match byts with Num b => zle (Z.of_nat n) b | Quoted _ => false end
  end.
