(** Model of reading and writing CLF files: ProcessList.py readFile and writeFile, and
    the loading of referenced files (ExtensionReference.py setPaths). *)
From Verif Require Export MXml.

(** What the code uses of the XML and gzip libraries. [B] is the type of file
    contents. [pretty] is xmlPrettify (ProcessList.py 67-76), which may raise;
    [parseXml] is etree.parse, None when it raises; [gzip], [gunzip] are what
    gzip.open writes and reads, None for content that is not gzip data;
    [accepts] tells whether file.write takes the text: prettyString is a unicode
    object and a Python 2 file refuses characters outside ASCII; [prefixes] are
    the contents the file can have while a text is being written. *)
Record fileLib (B : Type) := {
  pretty : xelem -> res B;
  parseXml : B -> option xelem;
  gzip : B -> B;
  gunzip : B -> option B;
  accepts : B -> bool;
  nothing : B;
  prefixes : B -> list B
}.
Arguments pretty {B}. Arguments parseXml {B}. Arguments gzip {B}. Arguments gunzip {B}. Arguments accepts {B}.
Arguments nothing {B}. Arguments prefixes {B}.

(** Every path, spelled as the program spells it, and what it leads to. *)
Definition disk (B : Type) := string -> option B.

Section Files.
  Context {T : Type} {NM : Num T} {X : NumText T} {B : Type} (io : fileLib B).

  (** ProcessList.py 187-234 once more, with the list as an exception leaves it: read
      works on the object in place. *)
  Fixpoint childrenInto (compat : Z) (load : string -> res (option (plist T))) (strict : bool) (l : plist T) (es : list xelem)
    : plist T * option exn :=
    match es with
    | [] => (l, None)
    | e :: t =>
        match listChild compat load strict l e with
        | Ok l' => childrenInto compat load strict l' t
        | Err w => (l, Some w)
        end
    end.
  Definition readInto compat load strict (l : plist T) (root : xelem) : plist T * option exn :=
    childrenInto compat load strict (setListAttrs l (x_attrib root)) (x_children root).

  (** ProcessList.py 236-258: readFile. [limit] bounds the nesting of readFile calls,
      as the Python recursion limit does. A Reference loads its file, if there is
      one, by ProcessList(path), that is leniently (ExtensionReference.py 91-97, ProcessList.py
      95-103). Opening a file is assumed to succeed when it exists. *)
  Fixpoint readFile (limit : nat) (compat : Z) (fs : disk B) (strict : bool) (l : plist T) (path : string) : plist T * option exn :=
    match limit with
    | O => (l, Some RecursionError)
    | S limit =>
        let load := fun p =>
          match fs p with
          | None => Ok None
          | Some _ =>
              match readFile limit compat fs false emptyList p with
              | (l', None) => Ok (Some l')
              | (_, Some w) => Err w
              end
          end in
        let plain := fun l =>
          match fs path with
          | None => (l, Some IOError)
          | Some b =>
              match parseXml io b with
              | None => (l, Some ParseError)
              | Some root => readInto compat load strict l root
              end
          end in
        if duiker_on compat then
          match fs path with
          | None => plain l
          | Some b =>
              match gunzip io b with
              | None => plain l
              | Some b' =>
                  match parseXml io b' with
                  | None => plain l
                  | Some root =>
                      match readInto compat load strict l root with
                      | (l', None) => (l', None)
                      | (l', Some _) => plain l'
                      end
                  end
              end
          end
        else plain l
    end.

  (** ProcessList.py 95-103: ProcessList(path, strict). *)
  Definition openList limit compat fs strict path : res (plist T) :=
    match readFile limit compat fs strict emptyList path with
    | (l, None) => Ok l
    | (_, Some w) => Err w
    end.

  (** ProcessList.py 150-177: writeFile. The result and the contents the target file
      goes through, oldest first. After an exception the file object is closed when
      it is collected: a gzip file is then complete but empty. *)
  Definition writeFile (compat : Z) (writeSelfContained writeGzip : bool) (l : plist T) : res bool * list B :=
    match listWrite compat writeSelfContained l with
    | Err w => (Err w, [])
    | Ok document =>
        let put := fun (f : B -> B) =>
          match pretty io document with
          | Err w => (Err w, [])
          | Ok text =>
              if accepts io text then (Ok true, nothing io :: prefixes io (f text) ++ [f text])
              else (Err ValueError, [nothing io; f (nothing io)])
          end in
        if writeGzip then
          if duiker_on compat then put (gzip io) else (Err UnsupportedExtensionError, [])
        else put (fun b => b)
    end.
End Files.
