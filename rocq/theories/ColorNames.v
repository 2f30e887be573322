(** The names of colours: the table of CSS Color Module Level 4, section 6.1, by
    red, green and blue from 0 to 255; and the digits of hexadecimal numbers.
    Used in statements only. *)
From Coq Require Import String.
From Verif Require Import Py.
Open Scope N_scope.
Open Scope list_scope.

Definition css_names : list (str * (N * N * N)) :=
  [
   (lit "aliceblue", (240, 248, 255));
   (lit "antiquewhite", (250, 235, 215));
   (lit "aqua", (0, 255, 255));
   (lit "aquamarine", (127, 255, 212));
   (lit "azure", (240, 255, 255));
   (lit "beige", (245, 245, 220));
   (lit "bisque", (255, 228, 196));
   (lit "black", (0, 0, 0));
   (lit "blanchedalmond", (255, 235, 205));
   (lit "blue", (0, 0, 255));
   (lit "blueviolet", (138, 43, 226));
   (lit "brown", (165, 42, 42));
   (lit "burlywood", (222, 184, 135));
   (lit "cadetblue", (95, 158, 160));
   (lit "chartreuse", (127, 255, 0));
   (lit "chocolate", (210, 105, 30));
   (lit "coral", (255, 127, 80));
   (lit "cornflowerblue", (100, 149, 237));
   (lit "cornsilk", (255, 248, 220));
   (lit "crimson", (220, 20, 60));
   (lit "cyan", (0, 255, 255));
   (lit "darkblue", (0, 0, 139));
   (lit "darkcyan", (0, 139, 139));
   (lit "darkgoldenrod", (184, 134, 11));
   (lit "darkgray", (169, 169, 169));
   (lit "darkgreen", (0, 100, 0));
   (lit "darkgrey", (169, 169, 169));
   (lit "darkkhaki", (189, 183, 107));
   (lit "darkmagenta", (139, 0, 139));
   (lit "darkolivegreen", (85, 107, 47));
   (lit "darkorange", (255, 140, 0));
   (lit "darkorchid", (153, 50, 204));
   (lit "darkred", (139, 0, 0));
   (lit "darksalmon", (233, 150, 122));
   (lit "darkseagreen", (143, 188, 143));
   (lit "darkslateblue", (72, 61, 139));
   (lit "darkslategray", (47, 79, 79));
   (lit "darkslategrey", (47, 79, 79));
   (lit "darkturquoise", (0, 206, 209));
   (lit "darkviolet", (148, 0, 211));
   (lit "deeppink", (255, 20, 147));
   (lit "deepskyblue", (0, 191, 255));
   (lit "dimgray", (105, 105, 105));
   (lit "dimgrey", (105, 105, 105));
   (lit "dodgerblue", (30, 144, 255));
   (lit "firebrick", (178, 34, 34));
   (lit "floralwhite", (255, 250, 240));
   (lit "forestgreen", (34, 139, 34));
   (lit "fuchsia", (255, 0, 255));
   (lit "gainsboro", (220, 220, 220));
   (lit "ghostwhite", (248, 248, 255));
   (lit "gold", (255, 215, 0));
   (lit "goldenrod", (218, 165, 32));
   (lit "gray", (128, 128, 128));
   (lit "green", (0, 128, 0));
   (lit "greenyellow", (173, 255, 47));
   (lit "grey", (128, 128, 128));
   (lit "honeydew", (240, 255, 240));
   (lit "hotpink", (255, 105, 180));
   (lit "indianred", (205, 92, 92));
   (lit "indigo", (75, 0, 130));
   (lit "ivory", (255, 255, 240));
   (lit "khaki", (240, 230, 140));
   (lit "lavender", (230, 230, 250));
   (lit "lavenderblush", (255, 240, 245));
   (lit "lawngreen", (124, 252, 0));
   (lit "lemonchiffon", (255, 250, 205));
   (lit "lightblue", (173, 216, 230));
   (lit "lightcoral", (240, 128, 128));
   (lit "lightcyan", (224, 255, 255));
   (lit "lightgoldenrodyellow", (250, 250, 210));
   (lit "lightgray", (211, 211, 211));
   (lit "lightgreen", (144, 238, 144));
   (lit "lightgrey", (211, 211, 211));
   (lit "lightpink", (255, 182, 193));
   (lit "lightsalmon", (255, 160, 122));
   (lit "lightseagreen", (32, 178, 170));
   (lit "lightskyblue", (135, 206, 250));
   (lit "lightslategray", (119, 136, 153));
   (lit "lightslategrey", (119, 136, 153));
   (lit "lightsteelblue", (176, 196, 222));
   (lit "lightyellow", (255, 255, 224));
   (lit "lime", (0, 255, 0));
   (lit "limegreen", (50, 205, 50));
   (lit "linen", (250, 240, 230));
   (lit "magenta", (255, 0, 255));
   (lit "maroon", (128, 0, 0));
   (lit "mediumaquamarine", (102, 205, 170));
   (lit "mediumblue", (0, 0, 205));
   (lit "mediumorchid", (186, 85, 211));
   (lit "mediumpurple", (147, 112, 219));
   (lit "mediumseagreen", (60, 179, 113));
   (lit "mediumslateblue", (123, 104, 238));
   (lit "mediumspringgreen", (0, 250, 154));
   (lit "mediumturquoise", (72, 209, 204));
   (lit "mediumvioletred", (199, 21, 133));
   (lit "midnightblue", (25, 25, 112));
   (lit "mintcream", (245, 255, 250));
   (lit "mistyrose", (255, 228, 225));
   (lit "moccasin", (255, 228, 181));
   (lit "navajowhite", (255, 222, 173));
   (lit "navy", (0, 0, 128));
   (lit "oldlace", (253, 245, 230));
   (lit "olive", (128, 128, 0));
   (lit "olivedrab", (107, 142, 35));
   (lit "orange", (255, 165, 0));
   (lit "orangered", (255, 69, 0));
   (lit "orchid", (218, 112, 214));
   (lit "palegoldenrod", (238, 232, 170));
   (lit "palegreen", (152, 251, 152));
   (lit "paleturquoise", (175, 238, 238));
   (lit "palevioletred", (219, 112, 147));
   (lit "papayawhip", (255, 239, 213));
   (lit "peachpuff", (255, 218, 185));
   (lit "peru", (205, 133, 63));
   (lit "pink", (255, 192, 203));
   (lit "plum", (221, 160, 221));
   (lit "powderblue", (176, 224, 230));
   (lit "purple", (128, 0, 128));
   (lit "rebeccapurple", (102, 51, 153));
   (lit "red", (255, 0, 0));
   (lit "rosybrown", (188, 143, 143));
   (lit "royalblue", (65, 105, 225));
   (lit "saddlebrown", (139, 69, 19));
   (lit "salmon", (250, 128, 114));
   (lit "sandybrown", (244, 164, 96));
   (lit "seagreen", (46, 139, 87));
   (lit "seashell", (255, 245, 238));
   (lit "sienna", (160, 82, 45));
   (lit "silver", (192, 192, 192));
   (lit "skyblue", (135, 206, 235));
   (lit "slateblue", (106, 90, 205));
   (lit "slategray", (112, 128, 144));
   (lit "slategrey", (112, 128, 144));
   (lit "snow", (255, 250, 250));
   (lit "springgreen", (0, 255, 127));
   (lit "steelblue", (70, 130, 180));
   (lit "tan", (210, 180, 140));
   (lit "teal", (0, 128, 128));
   (lit "thistle", (216, 191, 216));
   (lit "tomato", (255, 99, 71));
   (lit "turquoise", (64, 224, 208));
   (lit "violet", (238, 130, 238));
   (lit "wheat", (245, 222, 179));
   (lit "white", (255, 255, 255));
   (lit "whitesmoke", (245, 245, 245));
   (lit "yellow", (255, 255, 0));
   (lit "yellowgreen", (154, 205, 50))].

(** The digit [c] has the value [v]. *)
Definition hex_is (c v : N) : Prop :=
  nth_error (lit "0123456789abcdef") (N.to_nat v) = Some c \/ nth_error (lit "0123456789ABCDEF") (N.to_nat v) = Some c.
