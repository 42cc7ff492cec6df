(** Specification of XML documents (https://www.w3.org/TR/xml11, without document type declarations),
    independent of the model: which texts are documents, and which tokens they consist of.

    [lim = true] describes the documents the reader is shown to handle: every place where it takes
    less than XML allows is marked by a condition [lim = true -> ...]. *)
From Coq Require Import Arith NArith List Bool.
From Verif Require Import Base UniSpec.
From Verif Require XmlModel.
Import ListNotations.
Import XmlModel (ttype, Teof, Terror, Topen, Tclose, Tattr_name, Tattr_value, Tcontents, Tcdata, Tcomment, Tpi).
Local Open Scope N_scope.

(** A null-terminated string: bytes that are not 0. *)
Definition c_string (s : list N) : Prop := Forall (fun c => 0 < c < 256) s.

(** [2] Char *)
Definition xml_char (v : N) : Prop :=
  0x1 <= v <= 0xD7FF \/ 0xE000 <= v <= 0xFFFD \/ 0x10000 <= v <= 0x10FFFF.
(** [3] S *)
Definition space (c : N) : Prop := c = 32 \/ c = 9 \/ c = 10 \/ c = 13.
Definition spaces (s : list N) : Prop := Forall space s.
Definition spaces1 (s : list N) : Prop := s <> [] /\ spaces s.
(** [4] NameStartChar, [4a] NameChar, [5] Name *)
Definition in_ranges (ranges : list (N * N)) (v : N) : Prop := Exists (fun r => fst r <= v <= snd r) ranges.
Definition name_start (v : N) : Prop :=
  in_ranges [(58, 58); (65, 90); (95, 95); (97, 122); (0xC0, 0xD6); (0xD8, 0xF6); (0xF8, 0x2FF); (0x370, 0x37D);
             (0x37F, 0x1FFF); (0x200C, 0x200D); (0x2070, 0x218F); (0x2C00, 0x2FEF); (0x3001, 0xD7FF);
             (0xF900, 0xFDCF); (0xFDF0, 0xFFFD); (0x10000, 0xEFFFF)] v.
Definition name_char (v : N) : Prop :=
  name_start v \/ in_ranges [(45, 45); (46, 46); (48, 57); (0xB7, 0xB7); (0x300, 0x36F); (0x203F, 0x2040)] v.
Definition name (s : list N) : Prop :=
  exists v vs, encodes utf8_seq (v :: vs) s /\ name_start v /\ Forall name_char vs.

(** The text [f] occurs in [s]. *)
Definition occurs (f s : list N) : Prop := exists a b, s = a ++ f ++ b.
Definition begins (f s : list N) : Prop := exists b, s = f ++ b.

(** [66] CharRef, [68] EntityRef for the predefined entities: the text between '&' and ';' and the
    codepoint it stands for. *)
Definition dec_digit (c : N) : Prop := 48 <= c <= 57.
Inductive hex_digit : N -> N -> Prop :=
| HD_dec c : 48 <= c <= 57 -> hex_digit c (c - 48)
| HD_lower c : 97 <= c <= 102 -> hex_digit c (c - 97 + 10)
| HD_upper c : 65 <= c <= 70 -> hex_digit c (c - 65 + 10).
Definition dec_value (ds : list N) : N := fold_left (fun a d => 10 * a + (d - 48)) ds 0.
Definition hex_value (ds : list N) : N := fold_left (fun a d => 16 * a + d) ds 0.
Inductive reference (lim : bool) : list N -> N -> Prop :=
| R_lt : reference lim [108; 116] 60
| R_gt : reference lim [103; 116] 62
| R_amp : reference lim [97; 109; 112] 38
| R_apos : reference lim [97; 112; 111; 115] 39
| R_quot : reference lim [113; 117; 111; 116] 34
| R_dec ds : ds <> [] -> Forall dec_digit ds -> xml_char (dec_value ds) -> (lim = true -> (length ds <= 10)%nat) ->
    reference lim (35 :: ds) (dec_value ds)
| R_hex ds vs : ds <> [] -> Forall2 hex_digit ds vs -> xml_char (hex_value vs) -> (lim = true -> (length ds <= 8)%nat) ->
    reference lim (35 :: 120 :: ds) (hex_value vs).

(** [14] CharData with references: a text and the bytes it stands for. *)
Inductive chardata (lim : bool) : list N -> list N -> Prop :=
| D_nil : chardata lim [] []
| D_char v ch raw val : xml_char v -> v <> 38 -> v <> 60 -> utf8_seq v ch -> ~ begins [93; 93; 62] (ch ++ raw) ->
    chardata lim raw val -> chardata lim (ch ++ raw) (ch ++ val)
| D_ref ref v ch raw val : reference lim ref v -> utf8_seq v ch -> chardata lim raw val ->
    chardata lim (38 :: ref ++ 59 :: raw) (ch ++ val).

(** Text taken as it is: characters in UTF-8. *)
Definition chars (s : list N) : Prop := exists vs, encodes utf8_seq vs s /\ Forall xml_char vs.

(** Values the reader can store: of less than 64 bytes, or without characters of several bytes. *)
Definition storable (val : list N) : Prop := (length val < 64)%nat \/ Forall (fun c => c < 128) val.

Definition event : Type := (ttype * list N)%type.

(** [41] Attribute with the space in front of it; [attr_data] is [10] AttValue, where XML allows "]]>". *)
Inductive attr_data (lim : bool) : list N -> list N -> Prop :=
| AD_nil : attr_data lim [] []
| AD_char v ch raw val : xml_char v -> v <> 38 -> v <> 60 -> utf8_seq v ch ->
    (lim = true -> ~ begins [93; 93; 62] (ch ++ raw)) -> attr_data lim raw val -> attr_data lim (ch ++ raw) (ch ++ val)
| AD_ref ref v ch raw val : reference lim ref v -> utf8_seq v ch -> attr_data lim raw val ->
    attr_data lim (38 :: ref ++ 59 :: raw) (ch ++ val).
Inductive attributes (lim : bool) : list N -> list event -> Prop :=
| A_nil : attributes lim [] []
| A_cons w n w1 w2 q raw val rest evs :
    spaces1 w -> name n -> spaces w1 -> spaces w2 -> q = 34 \/ q = 39 -> ~ In q raw -> attr_data lim raw val ->
    (lim = true -> storable val) -> attributes lim rest evs ->
    attributes lim (w ++ n ++ w1 ++ [61] ++ w2 ++ [q] ++ raw ++ [q] ++ rest)
      ((Tattr_name, n) :: (Tattr_value, val) :: evs).

(** [15] Comment, [16] PI and [18] CDSect. *)
Inductive comment (lim : bool) : list N -> list event -> Prop :=
| M_comment t : chars t -> ~ occurs [45; 45] (t ++ [45]) -> (lim = true -> ~ In 38 t /\ storable t) ->
    comment lim ([60; 33; 45; 45] ++ t ++ [45; 45; 62]) [(Tcomment, t)].
Definition lower (c : N) : N := if (65 <=? c) && (c <=? 90) then c + 32 else c.
Inductive instruction (lim : bool) : list N -> list event -> Prop :=
| M_pi target w t : name target -> chars t -> t = [] \/ spaces1 w -> w = [] \/ spaces1 w ->
    ~ occurs [63; 62] (target ++ w ++ t) -> map lower target <> [120; 109; 108] ->
    (lim = true -> ~ occurs [93; 93; 62] (target ++ w ++ t) /\ ~ begins [120; 109; 108] (map lower target)) ->
    instruction lim ([60; 63] ++ target ++ w ++ t ++ [63; 62]) [(Tpi, target ++ w ++ t)].
Inductive cdata : list N -> list event -> Prop :=
| M_cdata t : chars t -> ~ occurs [93; 93; 62] (t ++ [93; 93]) ->
    cdata ([60; 33; 91; 67; 68; 65; 84; 65; 91] ++ t ++ [93; 93; 62]) [(Tcdata, t)].

(** [39] element and [43] content. *)
Inductive element (lim : bool) : list N -> list event -> Prop :=
| E_empty n as_ evs w : name n -> attributes lim as_ evs -> spaces w -> (lim = true -> as_ = []) ->
    element lim ([60] ++ n ++ as_ ++ w ++ [47; 62]) ((Topen, n) :: evs ++ [(Tclose, n)])
| E_content n as_ evs w body bevs w' : name n -> attributes lim as_ evs -> spaces w -> content lim body bevs -> spaces w' ->
    element lim ([60] ++ n ++ as_ ++ w ++ [62] ++ body ++ [60; 47] ++ n ++ w' ++ [62])
      ((Topen, n) :: evs ++ bevs ++ [(Tclose, n)])
with content (lim : bool) : list N -> list event -> Prop :=
| C_nil : content lim [] []
| C_text raw val rest evs : raw <> [] -> chardata lim raw val -> (lim = true -> storable val) ->
    rest = [] \/ begins [60] rest -> content lim rest evs ->
    content lim (raw ++ rest) ((Tcontents, val) :: evs)
| C_element m mevs rest evs : element lim m mevs -> content lim rest evs -> content lim (m ++ rest) (mevs ++ evs)
| C_comment m mevs rest evs : comment lim m mevs -> content lim rest evs -> content lim (m ++ rest) (mevs ++ evs)
| C_pi m mevs rest evs : instruction lim m mevs -> content lim rest evs -> content lim (m ++ rest) (mevs ++ evs)
| C_cdata m mevs rest evs : cdata m mevs -> content lim rest evs -> content lim (m ++ rest) (mevs ++ evs).

(** [27] Misc, [1] document (without declaration and document type). *)
Inductive misc (lim : bool) : list N -> list event -> Prop :=
| X_nil : misc lim [] []
| X_space c rest evs : space c -> misc lim rest evs -> misc lim (c :: rest) evs
| X_comment m mevs rest evs : comment lim m mevs -> misc lim rest evs -> misc lim (m ++ rest) (mevs ++ evs)
| X_pi m mevs rest evs : instruction lim m mevs -> misc lim rest evs -> misc lim (m ++ rest) (mevs ++ evs).
Inductive document (lim : bool) : list N -> list event -> Prop :=
| X_document a aevs e eevs b bevs : misc lim a aevs -> element lim e eevs -> misc lim b bevs ->
    document lim (a ++ e ++ b) (aevs ++ eevs ++ bevs).

(** ** What the reader takes for character data *)
Inductive predefined : list N -> N -> Prop :=
| PD_lt : predefined [108; 116] 60
| PD_gt : predefined [103; 116] 62
| PD_amp : predefined [97; 109; 112] 38
| PD_apos : predefined [97; 112; 111; 115] 39
| PD_quot : predefined [113; 117; 111; 116] 34.
(** [inside = true]: in a comment, where '<' and "]]>" are allowed. Differences from [chardata]: octets that follow the
    first one of a character may be anything, so overlong forms are decoded; decimal references are taken modulo 2^32; an
    entity that is not known is left as it is. *)
Inductive loose (inside : bool) : list N -> list N -> Prop :=
| O_nil : loose inside [] []
| O_char v ch raw val : lenient v ch -> xml_char v -> v <> 38 -> v <> 60 -> v <> 93 -> loose inside raw val ->
    loose inside (ch ++ raw) (ch ++ val)
| O_less ch raw val : lenient 60 ch -> inside = true -> loose inside raw val -> loose inside (ch ++ raw) (60 :: val)
| O_bracket ch raw val : lenient 93 ch -> (inside = false -> ~ begins [93; 62] raw) -> loose inside raw val ->
    loose inside (ch ++ raw) (93 :: val)
| O_entity ch n v raw val : lenient 38 ch -> predefined n v -> loose inside raw val ->
    loose inside (ch ++ n ++ 59 :: raw) (v :: val)
| O_dec ch ds b raw val : lenient 38 ch -> ds <> [] -> Forall dec_digit ds -> (length ds <= 10)%nat ->
    xml_char (dec_value ds mod 2 ^ 32) -> utf8_seq (dec_value ds mod 2 ^ 32) b -> loose inside raw val ->
    loose inside (ch ++ 35 :: ds ++ 59 :: raw) (b ++ val)
| O_hex ch ds vs b raw val : lenient 38 ch -> ds <> [] -> Forall2 hex_digit ds vs -> (length ds <= 8)%nat ->
    xml_char (hex_value vs) -> utf8_seq (hex_value vs) b -> loose inside raw val ->
    loose inside (ch ++ 35 :: 120 :: ds ++ 59 :: raw) (b ++ val)
| O_unknown ch raw val : lenient 38 ch -> ~ begins [35] raw -> (forall n v, predefined n v -> ~ begins (n ++ [59]) raw) ->
    In 59 raw -> loose inside raw val -> loose inside (ch ++ raw) (38 :: val).

(** ** The order of tokens *)
Inductive state := SProlog | STag (d : N) | SValue (d : N) | SBody (d : N) | SEpilog | SEnd | SStop.
(** The state behind the close tag of an element with [d] elements around it. *)
Definition closed (d : N) : state := if d =? 0 then SEpilog else SBody d.
(** [STag d]: behind the name or an attribute of a tag, inside of [d] elements; [SValue d]: behind the name of an attribute;
    [SBody d]: in the contents of an element. *)
Inductive follows : state -> ttype -> state -> Prop :=
| F_misc s t : In s [SProlog; SEpilog] -> In t [Tcomment; Tpi] -> follows s t s
| F_root : follows SProlog Topen (STag 1)
| F_name d : follows (STag d) Tattr_name (SValue d)
| F_value d : follows (SValue d) Tattr_value (STag d)
| F_body d s t : s = STag d \/ s = SBody d -> In t [Tcontents; Tcdata; Tcomment; Tpi] -> follows s t (SBody d)
| F_open d s : s = STag d \/ s = SBody d -> follows s Topen (STag (d + 1))
| F_close d s : s = STag (d + 1) \/ s = SBody (d + 1) -> follows s Tclose (closed d)
| F_eof : follows SEpilog Teof SEnd
| F_error s : follows s Terror SStop
| F_stray : follows SProlog Tclose SStop.
(** A sequence of tokens; behind [SStop] nothing is said. *)
Inductive walk : state -> list ttype -> state -> Prop :=
| W_nil s : walk s [] s
| W_cons s t s1 ts s2 : follows s t s1 -> walk s1 ts s2 -> walk s (t :: ts) s2
| W_stop ts : walk SStop ts SStop.

(** ** Positions *)
Definition newlines (s : list N) : N := N.of_nat (length (filter (N.eqb 10) s)).
(** 32-bit counters. *)
Definition same32 (a b : N) : Prop := a mod 2 ^ 32 = b mod 2 ^ 32.

(** ** Documents the reader can read without undefined behaviour: short ones, and those whose characters and references have
    one byte each. *)
Definition tame (flags : N) (s : list N) : Prop :=
  (length s < 64)%nat \/
  Forall (fun c => c < 128) s /\ ~ occurs [38; 35] s /\ (N.testbit flags 3 = false \/ N.testbit flags 2 = true).

(** ** The prolog *)
(** [25] Eq and a quoted value, with the space in front of the name. *)
Inductive pseudo (nm v : list N) : list N -> Prop :=
| Pseudo w w1 w2 q : spaces1 w -> spaces w1 -> spaces w2 -> q = 34 \/ q = 39 ->
    pseudo nm v (w ++ nm ++ w1 ++ [61] ++ w2 ++ [q] ++ v ++ [q]).
Definition letter (c : N) : Prop := 65 <= c <= 90 \/ 97 <= c <= 122.
(** [26] VersionNum of XML 1.0, second edition, and [81] EncName *)
Definition version_num (v : list N) : Prop := v <> [] /\ Forall (fun c => letter c \/ dec_digit c \/ In c [95; 46; 58; 45]) v.
Definition encoding_name (e : list N) : Prop :=
  exists c s, e = c :: s /\ letter c /\ Forall (fun c => letter c \/ dec_digit c \/ In c [95; 46; 45]) s.
Definition yes_no (b : bool) : list N := if b then [121; 101; 115] else [110; 111].
(** [23] XMLDecl: version, encoding ([[]]: none), standalone ([None]: not there). *)
Inductive declaration (lim : bool) : list N -> list N -> list N -> option bool -> Prop :=
| X_declaration v s1 e s2 sd s3 w :
    pseudo [118; 101; 114; 115; 105; 111; 110] v s1 -> version_num v ->
    e = [] /\ s2 = [] \/ encoding_name e /\ pseudo [101; 110; 99; 111; 100; 105; 110; 103] e s2 ->
    sd = None /\ s3 = [] \/ (exists b, sd = Some b /\ pseudo [115; 116; 97; 110; 100; 97; 108; 111; 110; 101] (yes_no b) s3) ->
    spaces w -> (lim = true -> sd <> Some false) ->
    declaration lim ([60; 63; 120; 109; 108] ++ s1 ++ s2 ++ s3 ++ w ++ [63; 62]) v e sd.
(** [28] doctypedecl, without its inner structure: angle brackets are balanced. *)
Inductive balanced : list N -> Prop :=
| BA_nil : balanced []
| BA_char c s : c <> 60 -> c <> 62 -> balanced s -> balanced (c :: s)
| BA_nest a b : balanced a -> balanced b -> balanced (60 :: a ++ 62 :: b).
Inductive doctype : list N -> Prop :=
| X_doctype t : balanced t -> doctype ([60; 33; 68; 79; 67; 84; 89; 80; 69] ++ t ++ [62]).
(** Spaces and comments. *)
Inductive remarks : list N -> Prop :=
| RM_nil : remarks []
| RM_space c s : space c -> remarks s -> remarks (c :: s)
| RM_comment m evs s : comment true m evs -> remarks s -> remarks (m ++ s).

(** ** Whitespace *)
(** Text without references and markup; below the space only whitespace. *)
Definition plain_char (v : N) : Prop := xml_char v /\ v <> 38 /\ v <> 60 /\ v <> 93 /\ (v <= 32 -> space v).
Definition plain_text (s : list N) : Prop := exists vs, encodes utf8_seq vs s /\ Forall plain_char vs.
(** [t] is [s] without the whitespace at its start ([l]) and its end ([r]). *)
Definition trimmed (l r : bool) (s t : list N) : Prop :=
  exists a b, s = a ++ t ++ b /\ spaces a /\ spaces b /\ (l = false -> a = []) /\ (r = false -> b = [])
    /\ (l = true -> forall c t', t = c :: t' -> ~ space c) /\ (r = true -> forall c t', t = t' ++ [c] -> ~ space c)
    /\ (t = [] -> l = true -> b = []).
(** Every longest run of whitespace becomes one space. *)
Inductive collapsed : list N -> list N -> Prop :=
| CO_nil : collapsed [] []
| CO_char c s t : ~ space c -> collapsed s t -> collapsed (c :: s) (c :: t)
| CO_run w s t : spaces1 w -> (forall c s', s = c :: s' -> ~ space c) -> collapsed s t -> collapsed (w ++ s) (32 :: t).
Definition unbroken (s : list N) : list N := map (fun c => if c =? 10 then 32 else c) s.
