(** The headers and form fields that the source of a handler asks for, and the headers it sets. *)
From Coq Require Import List String Ascii Bool ZArith Arith.
From Verif Require Import BaseStr BaseMap M_Types M_TypeTrav S_TypeTrav M_OpenAPI M_Parse S_Parse M_Resolve S_Resolve S_Typed S_Sends S_Queries.
Import ListNotations.
Local Open Scope string_scope.

Definition header_readers : list string := ["GetHeader"].
(** Methods that read the headers of the request into a struct. *)
Definition header_binders : list string := ["BindHeader"; "ShouldBindHeader"; "Bind"; "ShouldBind"].
Definition header_setters : list string := ["Header"].

(** What a field of a form holds: values of a type, or a file. *)
Inductive form_content := Values (T : gtype) | File.
Definition urlencoded : string := "application/x-www-form-urlencoded".
Definition multipart : string := "multipart/form-data".
(** Methods that read a field of a form: the encoding of the form, and what the field holds. *)
Definition form_readers : list (string * (string * form_content)) :=
  [("PostForm", (urlencoded, Values string_type)); ("GetPostForm", (urlencoded, Values string_type));
   ("PostFormArray", (urlencoded, Values (GSlice string_type))); ("GetPostFormArray", (urlencoded, Values (GSlice string_type)));
   ("PostFormMap", (urlencoded, Values (GMap string_type string_type))); ("GetPostFormMap", (urlencoded, Values (GMap string_type string_type)));
   ("FormFile", (multipart, File))].
(** Methods that read the form into a struct. *)
Definition form_binders : list string := ["Bind"; "ShouldBind"].

Section Asked.
  Context (co : code) (home : nat -> option (file * string * funcref)) (ctx : string) (f : file) (e : ex).

  (** One of the methods is called with this text as its first argument. *)
  Definition names_one (methods : list string) (name : string) : Prop :=
    exists m a rest f0, calls co home ctx f e m (a :: rest) f0 /\ In m methods /\ text_of co f0 a name.
  (** One of the methods is called with a value of the type as its first argument. *)
  Definition fills_one (methods : list string) (T : gtype) : Prop :=
    exists m a rest f0, calls co home ctx f e m (a :: rest) f0 /\ In m methods /\ typed co f0 a T.

  Definition reads_header : string -> Prop := names_one header_readers.
  Definition binds_header : gtype -> Prop := fills_one header_binders.
  Definition sets_header : string -> Prop := names_one header_setters.

  (** The field of the form of this encoding is read. *)
  Definition reads_form (encoding name : string) (k : form_content) : Prop :=
    exists m, In (m, (encoding, k)) form_readers /\ names_one [m] name.
  Definition binds_form : gtype -> Prop := fills_one form_binders.
End Asked.

(** The operation has a parameter in the headers of this name with this schema. *)
Definition has_header (op : Operation) (required : bool) (name : string) (s : Schema) : Prop :=
  exists q, In q (op_parameters op) /\ pa_in q = "header" /\ pa_name q = name /\ pa_required q = required /\ pa_schema q = s.
(** The operation has a response, and the response a header of this name with this schema. *)
Definition responds (op : Operation) (status : string) (resp : Response) : Prop := mlookup status (op_responses op) = Some resp.
Definition carries (resp : Response) (name : string) (s : Schema) : Prop :=
  exists h, mlookup name (resp_headers resp) = Some h /\ h_schema h = s /\ h_required h = false.

(** A text. *)
Definition text_schema (s : Schema) : Prop :=
  s_type s = "string" /\ s_format s = "" /\ s_ref s = "" /\ s_enum s = [] /\ s_props s = [] /\ s_allOf s = [].
(** An object of one property. *)
Definition one_property (s : Schema) (name : string) (p : Schema) : Prop :=
  s_type s = "object" /\ s_ref s = "" /\ s_props s = [(name, p)] /\ s_allOf s = [].
(** A file. *)
Definition file_schema (s : Schema) : Prop := s_type s = "string" /\ s_format s = "binary" /\ s_ref s = "".
(** The schema describes what a field of a form holds. *)
Definition holds (env : TypeEnv) (custom : list (string * TypeFormat)) (main : string) (d : Document) (k : form_content) (s : Schema) : Prop :=
  match k with Values T => portrays env custom main "form" d T s | File => file_schema s end.
(** What a document says of a form, if it is about the source: a field that is read, or a type the form is
    read into. *)
Definition tells_form (co : code) (home : nat -> option (file * string * funcref)) (ctx : string) (f : file) (e : ex)
    (custom : list (string * TypeFormat)) (main : string) (d : Document) (encoding : string) (s : Schema) : Prop :=
  (exists n k p, reads_form co home ctx f e encoding n k /\ n <> "" /\ one_property s n p /\
     (k = Values string_type \/ k = File -> holds (co_types co) custom main d k p)) \/
  (exists k, reads_form co home ctx f e encoding "" k) \/
  (exists T, binds_form co home ctx f e T /\ portrays (co_types co) custom main "form" d T s).
