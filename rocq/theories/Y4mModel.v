(** Raw video files. Sources: src/input/yuv4mpeg.cc, src/input/yuv4mpeg.hh,
    src/util/raster.cc l.85-105, src/decoder/prediction.cc l.94-97.
    Strings are lists of bytes. *)
From Verif Require Import Base ChunkModel FdModel MVModel FrameModel RasterModel.

(** yuv4mpeg.hh l.43-46. *)
Inductive interlacing : Type := Progressive | TopFirst | BottomFirst | Mixed.
Inductive colour_space : Type := C420jpeg | C420paldv | C420 | C422 | C444.

(** yuv4mpeg.hh l.51-58. *)
Record y4m_header : Type := mkY4m {
  ym_width : Z; ym_height : Z;
  ym_fps_n : Z; ym_fps_d : Z;
  ym_par_n : Z; ym_par_d : Z;
  ym_inter : interlacing;
  ym_colour : colour_space
}.

(** yuv4mpeg.cc l.38-50. *)
Definition empty_header : y4m_header := mkY4m 0 0 0 0 0 0 Progressive C420.
Definition header_for (r : raster) : y4m_header := mkY4m (ra_dw r) (ra_dh r) 24 1 1 1 Progressive C420.

(** ** Writing the header *)

(** An unsigned number to a stream, in decimal. *)
Fixpoint decimal_loop (fuel : nat) (n : Z) (acc : list Z) : list Z :=
  match fuel with
  | O => acc
  | S f => let acc' := (48 + n mod 10) :: acc in if n <? 10 then acc' else decimal_loop f (n / 10) acc'
  end.
Definition decimal (n : Z) : list Z := decimal_loop 20 n [].

(** "YUV4MPEG2" and the texts of the colour spaces (l.112-124). *)
Definition magic : list Z := [89; 85; 86; 52; 77; 80; 69; 71; 50].
Definition colour_text (c : colour_space) : list Z :=
  match c with
  | C420jpeg => [67; 52; 50; 48; 106; 112; 101; 103; 32; 88; 89; 83; 67; 83; 83; 61; 52; 50; 48; 74; 80; 69; 71]
  | C420paldv => [67; 52; 50; 48; 112; 97; 108; 100; 118; 32; 88; 89; 83; 67; 83; 83; 61; 52; 50; 48; 80; 65; 76; 68; 86]
  | C420 => [67; 52; 50; 48; 32; 88; 89; 83; 67; 83; 83; 61; 52; 50; 48]
  | C422 => [67; 52; 50; 50; 32; 88; 89; 83; 67; 83; 83; 61; 52; 50; 50]
  | C444 => [67; 52; 52; 52; 32; 88; 89; 83; 67; 83; 83; 61; 52; 52; 52]
  end.
Definition interlacing_letter (i : interlacing) : Z :=
  match i with Progressive => 112 | TopFirst => 116 | BottomFirst => 98 | Mixed => 109 end.

(** l.85-128. *)
Definition header_line (h : y4m_header) : list Z :=
  magic ++ 32 :: 87 :: decimal (ym_width h) ++ 32 :: 72 :: decimal (ym_height h) ++
  32 :: 70 :: decimal (ym_fps_n h) ++ 58 :: decimal (ym_fps_d h) ++
  32 :: 73 :: interlacing_letter (ym_inter h) ::
  32 :: 65 :: decimal (ym_par_n h) ++ 58 :: decimal (ym_par_d h) ++ 32 :: colour_text (ym_colour h).
Definition header_string (h : y4m_header) : list Z := header_line h ++ [10].

(** ** Reading the header *)

(** The exceptions of the reader, of std::stoi (YNumber: no number, YRange: not
    an int) and of the file descriptor. YAbort: a failed assertion or undefined
    behaviour. *)
Inductive y4m_error : Type :=
  YMagic | YNumber | YRange | YFraction | YInterlacing | YColour | YFormat | YMissing | YFd (e : fd_error) | YAbort.

(** isspace in the C locale. *)
Definition is_space (c : Z) : bool := (c =? 32) || ((9 <=? c) && (c <=? 13)).
Definition is_digit (c : Z) : bool := (48 <=? c) && (c <=? 57).

(** istringstream >> string, until it fails: the words. [cur] is the word being
    read, backwards. *)
Fixpoint words_loop (l : list Z) (cur : list Z) : list (list Z) :=
  match l with
  | [] => match cur with [] => [] | _ => [rev cur] end
  | c :: r =>
      if is_space c then match cur with [] => words_loop r [] | _ => rev cur :: words_loop r [] end
      else words_loop r (c :: cur)
  end.
Definition words (l : list Z) : list (list Z) := words_loop l [].

(** std::stoi in base 10. *)
Fixpoint skip_spaces (l : list Z) : list Z :=
  match l with c :: r => if is_space c then skip_spaces r else l | [] => [] end.
Fixpoint leading_digits (l : list Z) : list Z :=
  match l with c :: r => if is_digit c then c :: leading_digits r else [] | [] => [] end.
Definition number (ds : list Z) : Z := fold_left (fun v c => 10 * v + (c - 48)) ds 0.
Definition stoi (l : list Z) : res y4m_error Z :=
  let l1 := skip_spaces l in
  let (negative, l2) := match l1 with
                        | c :: r => if c =? 45 then (true, r) else if c =? 43 then (false, r) else (false, l1)
                        | [] => (false, [])
                        end in
  match leading_digits l2 with
  | [] => Err YNumber
  | ds => let v := if negative then - number ds else number ds in
          if (- 2 ^ 31 <=? v) && (v <? 2 ^ 31) then Ok v else Err YRange
  end.

(** string::find( ":" ) and the two substrings. *)
Fixpoint split_colon (l : list Z) : option (list Z * list Z) :=
  match l with
  | [] => None
  | c :: r => if c =? 58 then Some ([], r) else match split_colon r with Some (a, b) => Some (c :: a, b) | None => None end
  end.
(** l.130-145. *)
Definition parse_fraction (l : list Z) : res y4m_error (Z * Z) :=
  match split_colon l with
  | None => Err YFraction
  | Some (a, b) => let! n := stoi a in let! d := stoi b in Ok (n, d)
  end.

Definition eq_bytes (a b : list Z) : bool := if list_eq_dec Z.eq_dec a b then true else false.

(** l.167-224: one word of the header. Numbers are converted to uint16_t. *)
Definition header_word (h : y4m_header) (token : list Z) : res y4m_error y4m_header :=
  match token with
  | [] => Ok h
  | c :: r =>
      if c =? 87 then let! v := stoi r in Ok (mkY4m (wrap 16 v) (ym_height h) (ym_fps_n h) (ym_fps_d h) (ym_par_n h) (ym_par_d h) (ym_inter h) (ym_colour h))
      else if c =? 72 then let! v := stoi r in Ok (mkY4m (ym_width h) (wrap 16 v) (ym_fps_n h) (ym_fps_d h) (ym_par_n h) (ym_par_d h) (ym_inter h) (ym_colour h))
      else if c =? 70 then let! (n, d) := parse_fraction r in Ok (mkY4m (ym_width h) (ym_height h) (wrap 16 n) (wrap 16 d) (ym_par_n h) (ym_par_d h) (ym_inter h) (ym_colour h))
      else if c =? 73 then
        let set i := Ok (mkY4m (ym_width h) (ym_height h) (ym_fps_n h) (ym_fps_d h) (ym_par_n h) (ym_par_d h) i (ym_colour h)) in
        match r with
        | [] => Err YInterlacing
        | m :: _ => if m =? 112 then set Progressive else if m =? 116 then set TopFirst
                    else if m =? 98 then set BottomFirst else if m =? 109 then set Mixed else Err YInterlacing
        end
      else if c =? 65 then let! (n, d) := parse_fraction r in Ok (mkY4m (ym_width h) (ym_height h) (ym_fps_n h) (ym_fps_d h) (wrap 16 n) (wrap 16 d) (ym_inter h) (ym_colour h))
      else if c =? 67 then
        if eq_bytes (firstn 4 token) [67; 52; 50; 48]
        then Ok (mkY4m (ym_width h) (ym_height h) (ym_fps_n h) (ym_fps_d h) (ym_par_n h) (ym_par_d h) (ym_inter h) C420)
        else Err YColour
      else if c =? 88 then Ok h
      else Err YFormat
  end.
Fixpoint header_words (h : y4m_header) (l : list (list Z)) : res y4m_error y4m_header :=
  match l with
  | [] => Ok h
  | t :: r => let! h' := header_word h t in header_words h' r
  end.
(** l.157-229, after the line was read. *)
Definition parse_header (line : list Z) : res y4m_error y4m_header :=
  match words line with
  | [] => Err YMagic
  | t :: r =>
      if negb (eq_bytes t magic) then Err YMagic
      else let! h := header_words empty_header r in
           if (ym_width h =? 0) || (ym_height h =? 0) then Err YMissing else Ok h
  end.
(** l.153-229: the constructor. *)
Definition open_reader (s : source) : res y4m_error y4m_header * source :=
  match getline s with
  | (Err e, s') => (Err (YFd e), s')
  | (Ok line, s') => (parse_header line, s')
  end.

(** ** Reading pictures *)

(** memcpy( &storage()->at( 0, row ), data ): the assertion of at, and the end
    of the storage. *)
Definition store_row (p : plane) (row : Z) (data : list Z) : option plane :=
  if inside p 0 row && (row * pl_w p + zlen data <=? zlen (pl_px p))
  then Some (mkPlane (pl_w p) (pl_h p)
               (firstn (Z.to_nat (row * pl_w p)) (pl_px p) ++ data ++ skipn (Z.to_nat (row * pl_w p + zlen data)) (pl_px p)))
  else None.

(** l.288-301: each of the three loops. *)
Fixpoint read_rows (rows : list Z) (len : Z) (p : plane) (s : source) : res y4m_error plane * source :=
  match rows with
  | [] => (Ok p, s)
  | row :: r =>
      match read_exactly len s with
      | (Err e, s') => (Err (YFd e), s')
      | (Ok data, s') =>
          match store_row p row data with
          | None => (Err YAbort, s')
          | Some p' => read_rows r len p' s'
          end
      end
  end.

(** a, a+1, ..., b-1. *)
Definition zrange (a b : Z) : list Z := map (fun i => a + i) (zseq (b - a)).

(** l.231-264. *)
Definition extend_right (dw dh : Z) (p : plane) : option plane :=
  ofold (fun p row => let? v := pget p (dw - 1) row in ofold (fun p column => pset p column row v) (zrange dw (pl_w p)) p) (zseq dh) p.
Definition extend_bottom (dw dh : Z) (p : plane) : option plane :=
  ofold (fun p row => ofold (fun p column => let? v := pget p column (dh - 1) in pset p column row v) (zseq dw) p) (zrange dh (pl_h p)) p.
Definition extend_corner (dw dh : Z) (p : plane) : option plane :=
  let? v := pget p (dw - 1) (dh - 1) in
  ofold (fun p row => ofold (fun p column => pset p column row v) (zrange dw (pl_w p)) p) (zrange dh (pl_h p)) p.
Definition edge_extend_component (dw dh : Z) (p : plane) : option plane :=
  let? p1 := extend_right dw dh p in
  let? p2 := extend_bottom dw dh p1 in
  extend_corner dw dh p2.

(** raster.hh l.77-78. *)
Definition chroma_dim (n : Z) : Z := (1 + n) / 2.
(** l.266-271. *)
Definition edge_extend (r : raster) : option raster :=
  let? y := edge_extend_component (ra_dw r) (ra_dh r) (ra_y r) in
  let? u := edge_extend_component (chroma_dim (ra_dw r)) (chroma_dim (ra_dh r)) (ra_u r) in
  let? v := edge_extend_component (chroma_dim (ra_dw r)) (chroma_dim (ra_dh r)) (ra_v r) in
  Some (mkRaster (ra_dw r) (ra_dh r) y u v).

(** "FRAME". *)
Definition frame_word : list Z := [70; 82; 65; 77; 69].

(** l.273-307. [scratch]: the picture from the pool. The pool makes a picture
    whose width and height, rounded up to macroblocks, are uint16_t: above 65520
    they become 0, which TwoDStorage asserts against (prediction.cc l.94-97,
    raster.hh l.44-45). *)
Definition get_next_frame (h : y4m_header) (scratch : raster) (s : source) : res y4m_error (option raster) * source :=
  if (65520 <? ym_width h) || (65520 <? ym_height h) then (Err YAbort, s)
  else match getline s with
       | (Err e, s1) => (Err (YFd e), s1)
       | (Ok line, s1) =>
           if s_eof s1 then (Ok None, s1)
           else if negb (eq_bytes line frame_word) then (Err YFormat, s1)
           else match read_rows (zseq (ym_height h)) (ym_width h) (ra_y scratch) s1 with
                | (Err e, s2) => (Err e, s2)
                | (Ok y, s2) =>
                    match read_rows (zseq (ym_height h / 2)) (ym_width h / 2) (ra_u scratch) s2 with
                    | (Err e, s3) => (Err e, s3)
                    | (Ok u, s3) =>
                        match read_rows (zseq (ym_height h / 2)) (ym_width h / 2) (ra_v scratch) s3 with
                        | (Err e, s4) => (Err e, s4)
                        | (Ok v, s4) =>
                            match edge_extend (mkRaster (ra_dw scratch) (ra_dh scratch) y u v) with
                            | None => (Err YAbort, s4)
                            | Some r => (Ok (Some r), s4)
                            end
                        end
                    end
                end
       end.

(** A caller that reads to the end; [scratches]: the pictures from the pool.
    None: more pictures than expected. *)
Fixpoint read_all (h : y4m_header) (scratches : list raster) (s : source) : res y4m_error (list raster) * source :=
  match scratches with
  | [] => (Ok [], s)
  | scratch :: r =>
      match get_next_frame h scratch s with
      | (Err e, s') => (Err e, s')
      | (Ok None, s') => (Ok [], s')
      | (Ok (Some picture), s') =>
          match read_all h r s' with
          | (Err e, s'') => (Err e, s'')
          | (Ok l, s'') => (Ok (picture :: l), s'')
          end
      end
  end.

(** ** Writing pictures *)

(** raster.cc l.91: a chunk that starts at at( 0, row ). *)
Definition row_chunk (p : plane) (dw row : Z) : option (list Z) :=
  if inside p 0 row && (row * pl_w p + dw <=? zlen (pl_px p))
  then Some (firstn (Z.to_nat dw) (skipn (Z.to_nat (row * pl_w p)) (pl_px p)))
  else None.
Fixpoint omap {A B} (f : A -> option B) (l : list A) : option (list B) :=
  match l with
  | [] => Some []
  | a :: r => let? b := f a in let? t := omap f r in Some (b :: t)
  end.
(** raster.cc l.85-105. *)
Definition display_rectangle (r : raster) : option (list (list Z)) :=
  let cw := chroma_dim (ra_dw r) in
  let ch := chroma_dim (ra_dh r) in
  let? y := omap (row_chunk (ra_y r) (ra_dw r)) (zseq (ra_dh r)) in
  let? u := omap (row_chunk (ra_u r) cw) (zseq ch) in
  let? v := omap (row_chunk (ra_v r) cw) (zseq ch) in
  Some (y ++ u ++ v).

(** fd.write of every chunk; an answer schedule for each. *)
Fixpoint write_chunks (l : list (list Z)) (answers : list (list answer)) : res fd_error unit * list Z :=
  match l with
  | [] => (Ok tt, [])
  | c :: r =>
      match write_chunk (chunk_of c) (hd [] answers) with
      | (Err e, sent) => (Err e, sent)
      | (Ok _, sent) => let '(o, more) := write_chunks r (tl answers) in (o, sent ++ more)
      end
  end.
(** yuv4mpeg.cc l.309-317. The bytes that reached the file and how it ended. *)
Definition write_picture (r : raster) (first : list answer) (answers : list (list answer)) : res y4m_error unit * list Z :=
  match write_string (frame_word ++ [10]) true 0 first with
  | (Err e, sent) => (Err (YFd e), sent)
  | (Ok _, sent) =>
      match display_rectangle r with
      | None => (Err YAbort, sent)
      | Some l => match write_chunks l answers with
                  | (Err e, more) => (Err (YFd e), sent ++ more)
                  | (Ok _, more) => (Ok tt, sent ++ more)
                  end
      end
  end.
