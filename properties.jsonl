{"id": "C01", "title": "BBox(iterable) is the tightest enclosing box", "statement": "BBox(points) of a non-empty iterable has corners with x0 <= x <= x1 and y0 <= y <= y1 for every point, and each of its four sides passes through one of the points; an empty iterable raises StopIteration. The same holds when the coordinates are IEEE-754 doubles other than NaN.", "quantifier": "every finite sequence of points, of any length, with exact rational coordinates and with non-NaN doubles", "why_tests_cant": "Ranges over sequences of unbounded length and all coordinate values; the running if/elif update could miss an extremum in an order no example exercises.", "anchors": ["coral/bbox.py:BBox.__init__"]}
{"id": "C02", "title": "Box intersection is exact set intersection", "statement": "A point is inside a & b (half-open membership) exactly when it is inside a and inside b; if no point is shared the result is the empty box BBox().", "quantifier": "every pair of boxes (including zero-area and inverted boxes) and every point", "why_tests_cant": "Quantifies over all pairs of boxes and all points, including touching, nested and inverted configurations.", "anchors": ["coral/bbox.py:BBox.__and__", "coral/bbox.py:BBox.has_point", "coral/bbox.py:BBox.__bool__"]}
{"id": "C03", "title": "Box union: least upper bound of the non-degenerate operands, zero-area operands ignored", "statement": "For boxes of non-zero area a | b is the smallest box covering both, and is commutative, associative and idempotent; an operand of zero area is ignored entirely, so the union of a horizontal or vertical segment's box with another box does not cover the segment, and the union of two zero-area boxes is the right operand.", "quantifier": "all well-formed boxes, and all finite sequences of boxes folded with |", "why_tests_cant": "The algebraic laws and the 'ignored operand' behaviour must hold for every box; unit tests use a couple of literals.", "anchors": ["coral/bbox.py:BBox.__or__", "coral/bbox.py:BBox.__bool__"]}
{"id": "C04", "title": "collide() agrees with intersection", "statement": "For boxes of positive width and height, a.collide(b) is true exactly when some point is inside both boxes, equivalently when a & b is non-empty; collide is symmetric for every pair of boxes; a degenerate (single point) box collides with a proper box exactly when the point is inside it.", "quantifier": "all pairs of boxes", "why_tests_cant": "Quantifies over all relative placements, including shared edges.", "anchors": ["coral/bbox.py:BBox.collide", "coral/bbox.py:BBox.__and__"]}
{"id": "C05", "title": "Box containment", "statement": "b in a implies every point of b is a point of a and is transitive, but is strict at the upper sides: no box with positive extent contains itself, and a box b with b.x1 == a.x1 or b.y1 == a.y1 is never in a.", "quantifier": "all pairs and triples of boxes and all points", "why_tests_cant": "Needs all configurations; the self-containment surprise is a boundary case.", "anchors": ["coral/bbox.py:BBox.has_bbox", "coral/bbox.py:BBox.__contains__", "coral/bbox.py:BBox.has_point"]}
{"id": "C06", "title": "Translation and scaling algebra", "statement": "translate composes additively, is undone by the opposite translation, preserves width, height and area, and moves membership along; scale keeps the centre, multiplies width and height by the factor and the area by its square, composes multiplicatively, scale(1) is the identity, and dividing by a non-zero factor undoes multiplying by it (exact arithmetic).", "quantifier": "all boxes, offsets, factors and points (exact rational arithmetic)", "why_tests_cant": "Algebraic laws over an infinite domain.", "anchors": ["coral/bbox.py:BBox.translate", "coral/bbox.py:BBox.scale", "coral/bbox.py:BBox.__add__", "coral/bbox.py:BBox.__sub__", "coral/bbox.py:BBox.__mul__", "coral/bbox.py:BBox.__truediv__", "coral/bbox.py:BBox.center"]}
{"id": "C07", "title": "Box equality is hash equality", "statement": "Boxes with equal integer corners always compare equal, but == compares hashes, so boxes whose corners differ only by -1 versus -2 (which CPython hashes alike), or by a multiple of 2**61-1 with the same sign, compare equal although they are different boxes - whatever function combines the corner hashes.", "quantifier": "all integer-cornered boxes and every tuple-hash combining function", "why_tests_cant": "Depends on hash collisions that random tests essentially never hit.", "anchors": ["coral/bbox.py:BBox.__eq__", "coral/bbox.py:BBox.__hash__"]}
{"id": "C08", "title": "Box ordering", "statement": "a < b is a strict weak order by area (so sorted() on boxes is well defined), but the derived operators are not a total order: two different (unequal-hash) boxes of the same area are each > the other, each >= the other and neither is <= the other. All operators are right for boxes of different areas that do not compare equal, and for equal boxes of the same area.", "quantifier": "all boxes", "why_tests_cant": "Order laws quantify over all triples of boxes.", "anchors": ["coral/bbox.py:BBox.__lt__", "coral/bbox.py:BBox.__eq__", "functools.total_ordering on BBox"]}
{"id": "C09", "title": "Buffer is a bounded double-ended queue", "statement": "Buffer(n) is accepted exactly when n is 0 or a power of two, and after any sequence of push/pop/shift/peek/isempty/isfull calls (including ones that raise) every call returns what a list-based queue of capacity n would return: push appends, pop/peek use the newest, shift the oldest, push on a full and pop/peek/shift on an empty buffer raise AssertionError and change nothing; str() lists the content oldest first.", "quantifier": "all capacities and all operation sequences", "why_tests_cant": "Index wrap-around bugs show only after particular long histories.", "anchors": ["coral/coord.py:Buffer"]}
{"id": "C10", "title": "Half-away-from-zero rounding and grid snapping", "statement": "In exact arithmetic simplify's grid snapping maps x to the integer multiple of the cell size nearest to x, ties away from zero: |x - m*q| <= m/2, odd and monotone. In double arithmetic the helper is not a correct rounding: 0.49999999999999994 is rounded to 1 and 4503599627370497.0 to 4503599627370498.", "quantifier": "all rationals x and all cell sizes m > 0; specific doubles for the float failure", "why_tests_cant": "Rounding must hold for every value; the failing doubles are single bit patterns.", "anchors": ["coral/coord.py:nearest", "coral/coord.py:sqr_fit", "coral/raster.py:nearest"]}
{"id": "C11", "title": "Open-path simplification keeps the path", "statement": "simplify(path, m, k=k) (k a power of two) of a path with at least two points yields a subsequence of the grid-snapped points: the first one, then the corners of the snapped path (repeated points collapsed) with some adjacent equal pairs of corners (bases of out-and-back spurs) deleted - none if the path has no such pair, all of them if there are at most k corners - and the last one. A spur's base is dropped even where the remaining path turns there. With fewer than two points the underlying iterator's StopIteration escapes (RuntimeError since Python 3.7); k=0 raises as soon as a corner is met.", "quantifier": "all point sequences, cell sizes and buffer sizes", "why_tests_cant": "Unbounded sequences, arbitrary repeated/backtracking shapes and wrap-around of the internal buffer.", "anchors": ["coral/coord.py:open_no_slit", "coral/coord.py:simplify", "coral/coord.py:collinear"]}
{"id": "C12", "title": "Open-path simplification preserves the drawn line when the path never backtracks", "statement": "If the snapped path never reverses direction along a line and never revisits the last kept corner, every snapped input vertex lies on a segment between two consecutive output vertices.", "quantifier": "all non-backtracking paths of any length and all buffer sizes", "why_tests_cant": "A geometric guarantee over unbounded inputs.", "anchors": ["coral/coord.py:open_no_slit", "coral/coord.py:collinear"]}
{"id": "C13", "title": "Closed-polygon simplification: output vertices and order", "statement": "simplify(ring, m, closed=True) only yields snapped input vertices, starts with the first and ends with the last snapped vertex. While there are at most k corners the output is the first vertex, the corners in order with adjacent equal pairs cancelled, the vertex before the last and the last vertex twice; but with more than k and at most 2k distinct corners the first corners are moved behind the others, so the drawn polygon changes although no vertex is dropped. A ring of exactly two points raises UnboundLocalError.", "quantifier": "all rings; for the reordering, all rings in general position of size k+1..2k", "why_tests_cant": "The failure needs more than k=8 corners, typical for maps but not for small tests.", "anchors": ["coral/coord.py:closed_no_slit", "coral/coord.py:simplify"]}
{"id": "C14", "title": "collinear() is an affine-invariant ternary relation", "statement": "collinear(a,b,c) is true exactly when the cross product of b-a and c-a vanishes; it is invariant under every permutation of the arguments, translation and non-zero scaling, and true whenever two of the points coincide.", "quantifier": "all triples of exact points", "why_tests_cant": "Algebraic law over all points.", "anchors": ["coral/coord.py:collinear"]}
{"id": "C15", "title": "Haversine distance is a bounded symmetric distance", "statement": "haversine with an explicit radius R is R times the angle between the two points of the sphere, for all real coordinates (no negative square root): symmetric, between 0 and pi*R, zero exactly for coordinates of the same point, invariant under a common longitude shift and under whole turns, and it satisfies the triangle inequality. Without a radius, that of WGS84 at the mean latitude is used (real arithmetic).", "quantifier": "all real coordinates and all radii R >= 0", "why_tests_cant": "Analytic property over a continuum.", "anchors": ["coral/coord.py:haversine"]}
{"id": "C16", "title": "destination() inverts haversine()/bearing()", "statement": "destination(lon1, lat1, bearing(p1,p2), haversine(p1,p2,R), R) is the second point (longitude up to a multiple of 360 degrees), for all points with latitudes strictly between -90 and 90; bearings are negative towards the east and positive towards the west. When the radius is left out the two functions use radii at different latitudes: from the equator, destination(bearing, haversine) stops short of every goal due north (real arithmetic). Conversely, from any latitude in [-90, 90], any bearing and any distance d in [0, pi*R], the result has a valid latitude and a longitude in [-180, 180], its haversine distance from the start is exactly d, and (off the poles, 0 < d < pi*R) its bearing from the start is the given one modulo 360; without R the radius is radiusat(start latitude).", "quantifier": "all pairs of points with latitudes in (-90, 90) and R > 0", "why_tests_cant": "The docstring checks one pair; sign and quadrant errors show only in some quadrants.", "anchors": ["coral/coord.py:destination", "coral/coord.py:bearing", "coral/coord.py:haversine"]}
{"id": "C17", "title": "midpoint() is equidistant", "statement": "The point returned by midpoint is at half the haversine distance of the arguments from both of them (real arithmetic, non-antipodal points).", "quantifier": "all pairs of points with latitudes in [-90,90] that are not antipodal", "why_tests_cant": "Analytic property over a continuum.", "anchors": ["coral/coord.py:midpoint", "coral/coord.py:haversine"]}
{"id": "C18", "title": "radiusat() lies between the polar and equatorial radius", "statement": "For any ellipsoid with 0 < b <= a, b <= radiusat(lat) <= a for every latitude, with a at the equator and b at the poles (real arithmetic), and it is the distance from the centre to the point of the meridian ellipse whose normal has that latitude; in particular the divisor is never zero.", "quantifier": "all latitudes and ellipsoids", "why_tests_cant": "Analytic bound over a continuum.", "anchors": ["coral/coord.py:radiusat"]}
{"id": "C19", "title": "bearing2cardinal / bearing2hours name the nearest direction", "statement": "For every bearing b, bearing2cardinal returns the point of the 16-wind compass whose direction is within 11.25 degrees of b modulo 360 (anticlockwise convention), never fails, and is periodic in 360; bearing2hours returns a value in (0, 12] that is periodic in 360 and 12 at bearing 0 (exact arithmetic).", "quantifier": "all rational bearings, negative ones and those beyond 360 included", "why_tests_cant": "All real inputs, all sector boundaries.", "anchors": ["coral/coord.py:bearing2cardinal", "coral/coord.py:bearing2hours"]}
{"id": "C20", "title": "Polygon centroid step", "statement": "The planar centroid computed per polygon is the vertex mean for triangles, additive when a polygon is cut along a chord, independent of orientation and of the starting vertex, moves with translations, and fails with ZeroDivisionError exactly for zero area; the region centroid is the signed-area-weighted mean. geocentroid(region), if it returns, returns the centroid in the equal-area plane around a point within epsilon of the result; with a given bounding box it does not depend on the order of polygons, their first vertices or a common reversal. A rectangle symmetric about the equator raises ZeroDivisionError, and an empty region AttributeError.", "quantifier": "all polygons of any size with exact coordinates", "why_tests_cant": "Unbounded polygon sizes, all coordinates.", "anchors": ["coral/coord.py:geocentroid"]}
{"id": "C21", "title": "corangle normalises angles", "statement": "In exact arithmetic corangle(a) terminates and returns an angle in [-pi, pi] differing from a by a multiple of 2 pi, and leaves angles already in range alone. In double arithmetic it never ends for any angle beyond 2**56 in absolute value (1e17 and the infinities for instance), because adding or subtracting 2*pi does not change the value.", "quantifier": "all real angles; all doubles beyond 2**56", "why_tests_cant": "Termination for all inputs cannot be tested.", "anchors": ["coral/proj.py:corangle"]}
{"id": "C22", "title": "Mercator round trip", "statement": "Mercator.rect2geo(geo2rect(lon, lat)) = (lon, lat), longitude modulo 360, for every latitude strictly between the poles; latitude -90 raises ProjectionError (real arithmetic); the ellipsoidal variant's inverse, when its fixed-point loop exits, is exact in both directions, and after n turns of the loop the latitude is within e**(2n) * e*artanh(e) of the right one.", "quantifier": "all coordinates, origins and radii; all ellipsoids with 0 <= e < 1", "why_tests_cant": "Analytic identity over a continuum.", "anchors": ["coral/proj.py:Mercator", "coral/proj.py:EMercator"]}
{"id": "C23", "title": "Transverse Mercator round trip", "statement": "TransMercator.rect2geo(geo2rect(lon, lat)) returns the original point (longitude modulo 360) for every point with latitude strictly between the poles and |cos(lat) sin(lon-lon0)| < 1; points with |..| = 1 raise ProjectionError (real arithmetic).", "quantifier": "all coordinates, origins and radii", "why_tests_cant": "Quadrant handling must be right everywhere.", "anchors": ["coral/proj.py:TransMercator"]}
{"id": "C24", "title": "Azimuthal projections: inverse valid only for the near side, centre not invertible", "statement": "For the Stereographic, Azimuthal Equidistant and Lambert Azimuthal Equal-Area projections and any origin, a point other than the origin and its antipode, with latitude strictly between the poles, comes back exactly (longitude mod 360) if it is less than 90 degrees of longitude from the origin, with a longitude off by 180 degrees if it is more, and raises ZeroDivisionError at exactly 90 degrees or at a pole. rect2geo of the projected origin raises ZeroDivisionError, so does geo2rect of the antipode. In the equidistant projection the polar coordinates are the haversine distance and the bearing from the origin (real arithmetic).", "quantifier": "all coordinates and origins", "why_tests_cant": "Needs all quadrants and the singular centre.", "anchors": ["coral/proj.py:Stereographic", "coral/proj.py:AzimuthalEquidistant", "coral/proj.py:AzimuthalEqualArea"]}
{"id": "C25", "title": "Albers conic round trip", "statement": "ConicEqualArea.rect2geo(geo2rect(lon, lat)) = (lon, lat) for all parallels with non-zero cone constant n (either sign), -180 < n*lon <= 180 degrees and latitudes strictly between the poles; n = 0 (such as the default parallels) raises ZeroDivisionError in the constructor (real arithmetic).", "quantifier": "all parallels, coordinates and radii", "why_tests_cant": "Sign handling for southern cones must hold everywhere.", "anchors": ["coral/proj.py:ConicEqualArea"]}
{"id": "C26", "title": "IVar index/value bijection and width selection", "statement": "IVar(minv, maxv, nullable) picks the smallest width of 1, 2, 4 or 8 bytes whose range holds maxv-minv+1 values (plus one if nullable), raises ValueError exactly if none fits, and value(index(v)) == v for every v in range (and None if nullable); out-of-range values raise AssertionError.", "quantifier": "all integer bounds and values", "why_tests_cant": "Boundary arithmetic at 2**8, 2**16, 2**32, 2**64 for all bounds.", "anchors": ["coral/grid.py:IVar"]}
{"id": "C27", "title": "IVar cannot be encoded", "statement": "IVar.encode raises AttributeError for every value in range and IVar.decode raises AttributeError for every input, because the struct format attribute is never set; so a row containing an integer field cannot be written.", "quantifier": "all IVar fields and values, all rows with an IVar field", "why_tests_cant": "Universal failure statement.", "anchors": ["coral/grid.py:IVar.encode", "coral/grid.py:IVar.decode", "coral/grid.py:GRow.encode"]}
{"id": "C28", "title": "FVar quantisation: error bound and exact set of encodable values", "statement": "FVar.decode(FVar.encode(v)) is within (maxv-minv)/(2*span) of v whenever encode succeeds; encode of a non-null in-range value fails (struct.error) exactly when the field is not nullable and v quantises to 2**(8*size), in particular always for v == maxv; encode(None) on a nullable field always fails with struct.error (exact arithmetic).", "quantifier": "all bounds, sizes 1/2/4/8 and all rational values", "why_tests_cant": "Round-off bound and failure set over a continuum of values.", "anchors": ["coral/grid.py:FVar"]}
{"id": "C29", "title": "FVar decode/encode identity on stored codes", "statement": "Every code that decode accepts re-encodes to itself: encode(decode(data)) == data for all byte strings of the field's size (exact arithmetic), so re-saving a data set does not drift.", "quantifier": "all field parameters and all byte strings of the field's size", "why_tests_cant": "All 2**64 codes.", "anchors": ["coral/grid.py:FVar.encode", "coral/grid.py:FVar.decode"]}
{"id": "C30", "title": "SVar round trip", "statement": "A string whose UTF-8 form fits the field and which does not end in NUL decodes to itself after encoding; a null decodes to None; no string is mistaken for null unless the field size is 0; a string with trailing NULs loses them; oversize strings raise AssertionError.", "quantifier": "all strings of Unicode scalar values and all field sizes", "why_tests_cant": "All Unicode strings, multi-byte boundaries.", "anchors": ["coral/grid.py:SVar", "UTF-8 codec"]}
{"id": "C31", "title": "GRow concatenates and splits fields consistently", "statement": "For every list of fields whose encoders honour their size, GRow.decode(GRow.encode(values)) returns for each column exactly that column's own decode(encode(value)); too few values raise AssertionError (when the missing fields have positive size), extra values are ignored.", "quantifier": "all rows and field lists of any length", "why_tests_cant": "Offset arithmetic over arbitrary field lists.", "anchors": ["coral/grid.py:GRow"]}
{"id": "C32", "title": "Variable-length integers round trip and are self-delimiting", "statement": "readvlv after writevlv(v) returns v and consumes exactly the written bytes, for every v >= 0; likewise readsvlv/writesvlv for every integer; the encoding is prefix-free and uses the minimum number of bytes (no leading 0x80); a truncated encoding raises instead of returning a value.", "quantifier": "all integers and all following byte streams", "why_tests_cant": "Unbounded integers and arbitrary trailing data.", "anchors": ["coral/pf.py:base128", "coral/pf.py:writevlv", "coral/pf.py:readvlv", "coral/pf.py:writesvlv", "coral/pf.py:readsvlv", "coral/rg.py same functions"]}
{"id": "C33", "title": "NUL-terminated names", "statement": "readascii after writeascii(name) returns the name and consumes exactly its bytes for every ASCII name without NUL; non-ASCII names raise UnicodeEncodeError; on input without a NUL byte readascii never returns (it loops at end of file).", "quantifier": "all names and all byte streams", "why_tests_cant": "Non-termination and arbitrary names.", "anchors": ["coral/pf.py:writeascii", "coral/pf.py:readascii"]}
{"id": "C34", "title": "P file round trip", "statement": "After any sequence of successful Writer.write calls and close, Reader(path) succeeds, lists the same names in order, and read(i) (and read(i-n)) returns the polygons of the i-th entity with the same number of parts and points, each coordinate being the dequantised stored code; get(name) returns the first entity of that name.", "quantifier": "all histories of writes with valid names, all coordinate sizes, any number of entities, parts and points", "why_tests_cant": "Quantifies over whole files of unbounded size.", "anchors": ["coral/pf.py:Writer", "coral/pf.py:Reader"]}
{"id": "C35", "title": "P file quantisation error and acceptance", "statement": "In exact arithmetic, Writer.write accepts every entity inside the world rectangle whose parts all have a bounding box of non-zero area, and every single-part entity not confined to one line of the 65535-step world grid; the stored box is the tightest grid rectangle around the points (what read then returns is within half a quantisation step of that box, C34). A single part confined to a grid line raises ZeroDivisionError; with several parts, a part without area can make write raise struct.error.", "quantifier": "all polygons with longitudes in [-180,180] and latitudes in [-90,90]", "why_tests_cant": "Rounding bound over all coordinates.", "anchors": ["coral/pf.py:Writer.write", "coral/pf.py:Reader.read"]}
{"id": "C36", "title": "P writer normalises longitude, hangs on latitude above 90", "statement": "Writer.write stores a longitude outside [-180,180] as the longitude in that range differing by a multiple of 360, and a latitude below -90 as one in range differing by a multiple of 180; it returns if and only if no latitude exceeds 90 (the correction loop for larger ones moves away from the range).", "quantifier": "all longitudes and latitudes (exact arithmetic)", "why_tests_cant": "Non-termination cannot be established by a test.", "anchors": ["coral/pf.py:Writer.write"]}
{"id": "C37", "title": "P writer is not exception safe", "statement": "A Writer.write that raises because a part is a single point or because the entity has no part leaves the entity's name registered, and close then fails whatever is written in between. A write that raises while quantising (zero-width box, code out of range) also leaves the name: closing right after it gives a file whose other entities are intact but where reading that one raises struct.error, and entities written after it come back with wrong geometry. An empty polygon raises IndexError and leaves the writer as it was.", "quantifier": "every writer state and every such failing write", "why_tests_cant": "A history property: failure followed by further calls.", "anchors": ["coral/pf.py:Writer.write", "coral/pf.py:Writer.close"]}
{"id": "C38", "title": "8-byte P files reject points on the box edge (double arithmetic)", "statement": "With size=8, in IEEE double arithmetic, an entity with a non-final point on the upper edge of its outward-rounded box makes Writer.write raise (struct.error, because 2**64-1 is rounded to 2**64, or ZeroDivisionError when the box has no width); in particular any polygon with a non-final point at longitude 180.", "quantifier": "all entities with a point on the upper edge of the stored box (computed in double arithmetic)", "why_tests_cant": "Depends on rounding of 2**64-1 in double precision.", "anchors": ["coral/pf.py:Writer.write", "coral/pf.py:getfmt"]}
{"id": "C39", "title": "RangeGrid header round trip", "statement": "Parsing the header written for any list of fewer than 256 valid fields with integer bounds gives back the field list (name, kind, bounds, size, nullability).", "quantifier": "all field lists", "why_tests_cant": "Arbitrary field lists, names and bounds.", "anchors": ["coral/rg.py:Writer._header", "coral/rg.py:Reader._header"]}
{"id": "C40", "title": "RangeGrid index file round trip", "statement": "Reading the index file written for entities whose ids contain no space or line break and have at least one segment gives back the ids (as text) and segment lengths in order; the first entity without segments or with a space in its id makes the reader raise ValueError.", "quantifier": "all indexes", "why_tests_cant": "Arbitrary ids and numbers of segments.", "anchors": ["coral/rg.py:_writeindex", "coral/rg.py:_readindex"]}
{"id": "C41", "title": "rg.Reader cannot be constructed", "statement": "Reader(path) raises NameError on every data set written by Writer whose index can be read back, because the collections module is never imported, and it never succeeds on any files; were it imported, read would return every entity's rows, by id or sequentially.", "quantifier": "all data sets", "why_tests_cant": "Universal failure statement / conditional round trip over all files.", "anchors": ["coral/rg.py:Reader._header", "coral/rg.py:Reader.read"]}
{"id": "C42", "title": "RangeGrid writer is not exception safe", "statement": "If encoding a row raises in the middle of Writer.write, the rows already written stay in the data file without an index entry, so each later entity is read back shifted: its rows are taken, at its offset, from the stale rows followed by the later rows.", "quantifier": "all histories containing a failed write", "why_tests_cant": "A history property.", "anchors": ["coral/rg.py:Writer.write", "coral/rg.py:Writer.close"]}
{"id": "C43", "title": "Bitmap canvas pixel store", "statement": "On a BWCanvas, after writing a pixel, reading it back gives the written truth value and every other in-range pixel is unchanged; a new canvas with background 0 reads 0 everywhere and with 255 reads 1 everywhere, but background 1 sets only every eighth pixel.", "quantifier": "all canvas sizes and all pairs of in-range pixels", "why_tests_cant": "All pairs of pixels and widths not multiple of 8.", "anchors": ["coral/raster.py:BWCanvas"]}
{"id": "C44", "title": "Gray and colour canvas pixel store", "statement": "On GrayCanvas and ColorCanvas a written in-range pixel reads back as written and all others are unchanged; the buffer length never changes for in-range writes; on ColorCanvas an out-of-range write (for example y == height) silently grows the buffer instead of raising.", "quantifier": "all canvas sizes, pixels and colours", "why_tests_cant": "All pixels and sizes.", "anchors": ["coral/raster.py:GrayCanvas", "coral/raster.py:ColorCanvas"]}
{"id": "C45", "title": "Alpha blending stays in range", "statement": "Blending byte colours with alpha in [0,1] gives a byte between the two colours (inclusive), the background for alpha 0 and the foreground for alpha 1 (exact arithmetic).", "quantifier": "all byte colours and all rational alphas", "why_tests_cant": "All alphas.", "anchors": ["coral/raster.py:GrayCanvas.blend", "coral/raster.py:ColorCanvas.blend"]}
{"id": "C46", "title": "Bresenham line", "statement": "For all integer endpoints line() terminates, paints both endpoints, only pixels of the bounding rectangle of the endpoints, consecutive painted pixels are 8-neighbours, each column (or row, if steeper) of the span gets exactly one pixel, and every painted pixel is within half a pixel of the ideal segment in the minor direction.", "quantifier": "all integer endpoints", "why_tests_cant": "Termination and accuracy for every slope and length.", "anchors": ["coral/raster.py:BaseCanvas.line"]}
{"id": "C47", "title": "Scan conversion marks every edge crossing once", "statement": "scanpolygon adds, for each non-horizontal edge and each row y with ymin <= y < ymax, exactly one mark at the rounded intersection with direction of travel, and none for horizontal edges, so every row of a closed polygon gets equally many upward and downward marks; rows outside 0..height-1 raise IndexError or wrap (exact arithmetic).", "quantifier": "all polygons with integer rows, of any size", "why_tests_cant": "All polygons.", "anchors": ["coral/raster.py:BaseCanvas.scanpolygon"]}
{"id": "C48", "title": "Scanline fill rule", "statement": "fillpolygons paints pixel (x, y) exactly when the rightmost mark at or left of x on row y is an upward one and a further mark lies right of x but inside the canvas, or x is left of a first mark that is downward: so clockwise (on screen) polygons inside the canvas are filled on the inside, anticlockwise ones on the outside left, and spans cut by the right border are not painted.", "quantifier": "all mark lists on all rows", "why_tests_cant": "All mark configurations.", "anchors": ["coral/raster.py:BaseCanvas.fillpolygons"]}
{"id": "C49", "title": "Memoised statistics are transparent", "statement": "Every call through the bounded least-recently-used cache returns the same value as the uncached function, for any call history; the cache never holds more than maxsize entries, hits plus misses equals the number of calls; stats.cache_clear leaves the max and min caches untouched and cache_info ignores them.", "quantifier": "all call histories", "why_tests_cant": "Eviction bugs depend on history.", "anchors": ["coral/stats.py:memoize", "coral/stats.py:cache_clear", "coral/stats.py:cache_info"]}
{"id": "C50", "title": "Variance, covariance and correlation laws", "statement": "var is non-negative, equals mean of squares minus square of mean, covar(x,x) = var(x), covar is symmetric for equal lengths, covar**2 <= var*var, hence |corr| <= 1; empty input raises ZeroDivisionError (exact/real arithmetic).", "quantifier": "all finite sequences", "why_tests_cant": "Algebraic laws over sequences of any length.", "anchors": ["coral/stats.py:avg", "coral/stats.py:var", "coral/stats.py:covar", "coral/stats.py:corr"]}
{"id": "C51", "title": "The two Gini formulas agree", "statement": "gini_kakwani(seq) == gini_deaton(seq) for every sequence of at least two numbers with non-zero mean; the value is invariant under permutation and positive scaling, lies in [0,1] for non-negative data, and is 0 when all values are equal; shorter input raises ZeroDivisionError (exact arithmetic).", "quantifier": "all finite sequences", "why_tests_cant": "Equality of a quadratic and a sorting algorithm on all inputs.", "anchors": ["coral/stats.py:gini_kakwani", "coral/stats.py:gini_deaton"]}
{"id": "C52", "title": "Left join", "statement": "join(t1, t2, pivots, keys) has one row per row of t1 in order; each cell is the value from the first row of t2 that agrees on all pivots if there is one and it has that column, else the value from t1, else the empty string.", "quantifier": "all tables, pivot and key lists", "why_tests_cant": "All tables.", "anchors": ["coral/table.py:join"]}
{"id": "C53", "title": "Table queries and restructuring", "statement": "getall returns exactly the rows whose column equals the query in order, getone the first of them or None; indexby maps each key value to the last row having it without the key column; addkey appends the computed column; delkeys keeps the remaining columns in order; an unknown column raises KeyError (delkeys ignores unknown names; getall yields what precedes the row that lacks it).", "quantifier": "all tables and keys", "why_tests_cant": "All tables.", "anchors": ["coral/table.py:getone", "coral/table.py:getall", "coral/table.py:indexby", "coral/table.py:addkey", "coral/table.py:delkeys"]}
{"id": "C54", "title": "CSV write/read round trip", "statement": "readfile(writefile(table)) returns the same table when no cell contains the separator, the comment character, a line break or surrounding white space and no row is blank; passing keys in an order different from the file's silently puts values under the wrong names; reading a file with no header line never returns.", "quantifier": "all tables and file contents", "why_tests_cant": "All strings; non-termination.", "anchors": ["coral/table.py:readfile", "coral/table.py:writefile"]}
{"id": "C55", "title": "Gradient interpolation", "statement": "Gradient(points).get(x) for x in [0,1] never fails, returns exactly the stop colour at a stop, the linear interpolation between the two neighbouring stops otherwise, each component between the neighbouring components; x above the last stop raises IndexError; the result does not depend on the order in which stops are given (distinct positions) (exact arithmetic).", "quantifier": "all stop lists and all rational x", "why_tests_cant": "All positions.", "anchors": ["coral/gradient.py:Gradient"]}
{"id": "C56", "title": "Gradient hex colours", "statement": "get_hex(x) for x in [0,1] and colour components in [0,1] is '#' followed by one hexadecimal digit per component, the digit being floor(15*c).", "quantifier": "all stop lists with components in [0,1] and all x in [0,1]", "why_tests_cant": "All positions.", "anchors": ["coral/gradient.py:Gradient.get_hex"]}
{"id": "C57", "title": "damlev computes the optimal string alignment distance", "statement": "damlev(s,t) equals the minimum cost over all alignments built from match, substitution, insertion, deletion and adjacent transposition of the two strings.", "quantifier": "all pairs of strings", "why_tests_cant": "Optimality over all edit scripts.", "anchors": ["coral/names.py:damlev"]}
{"id": "C58", "title": "damlev metric laws", "statement": "damlev is symmetric, zero exactly on equal strings, at least the length difference and at most the longer length; it does not satisfy the triangle inequality (ca/ac/abc).", "quantifier": "all pairs of strings", "why_tests_cant": "Laws over all strings.", "anchors": ["coral/names.py:damlev", "coral/names.py:strerr"]}
{"id": "C59", "title": "Jaro similarity", "statement": "jaro(s,s) = 1 for non-empty s, jaro is never negative and is at most 1 when the first string is not longer and the second has no '*'; but it is neither bounded by 1 nor symmetric in general (jaro('aaaaaaaa','ab') > 1).", "quantifier": "all pairs of strings", "why_tests_cant": "Range over all strings.", "anchors": ["coral/names.py:jaro", "coral/names.py:jaro_winkler"]}
{"id": "C60", "title": "mapping() picks a closest value for every key", "statement": "mapping(keys, values) returns one match per key, its value minimises the normalised distance with the earliest value winning ties, and the list is sorted by decreasing score with ties in key order.", "quantifier": "all key and value lists of non-empty strings", "why_tests_cant": "All lists.", "anchors": ["coral/names.py:mapping", "coral/names.py:strerr"]}
{"id": "C61", "title": "ascii() folding and abbreviations()", "statement": "ascii keeps length, is idempotent, leaves ASCII text unchanged and maps each listed accented letter to its ASCII base letter of the same case; abbreviations raises NameError for every non-empty list of names.", "quantifier": "all strings; all name lists", "why_tests_cant": "All strings.", "anchors": ["coral/names.py:ascii", "coral/names.py:abbreviations"]}
{"id": "C62", "title": "Frame save/load", "statement": "load(save(frame)) restores projection class, centre, radius and bounding box for spherical cylindrical/azimuthal projections (exact arithmetic); frames with an ellipsoidal projection can be saved but load raises NameError; frames with the Albers projection cannot be saved (AttributeError).", "quantifier": "all frames", "why_tests_cant": "All parameter values.", "anchors": ["coral/frame.py:Frame.save", "coral/frame.py:load"]}
{"id": "C63", "title": "Frame name cache", "statement": "loadnames(key) after cachenames(key, pff) returns, in file order, exactly the names of entities having a polygon whose projected box collides with the frame, provided the names have no trailing white space or line breaks; the returned count is the number of lines.", "quantifier": "all P files and frames", "why_tests_cant": "All files and names.", "anchors": ["coral/frame.py:Frame.cachenames", "coral/frame.py:Frame.loadnames"]}
{"id": "C64", "title": "Canvas line width and dash state", "statement": "Interpreting the emitted PostScript, the line width and dash in force at every painting operator are those last requested on the Canvas (or the defaults), for every sequence of canvas operations, whether or not the file is fitted to a page, provided that no list is changed after it was given to setdash (then a repeated request is ignored) and that texts have balanced parentheses and images are bytes.", "quantifier": "all operation histories", "why_tests_cant": "Redundant-setting elimination depends on history.", "anchors": ["coral/vector.py:Canvas.setwidth", "coral/vector.py:Canvas.setdash", "coral/vector.py:Canvas"]}
{"id": "C65", "title": "Canvas ink state", "statement": "If all inks, including the background, are gray or all are RGB, and no call fills and strokes with the same ink, each painting operator of the saved file uses the requested ink (that of the call, else the last one set, else the background, else black); in general it does not: filling and stroking with the same ink strokes with the previous ink, and alternating gray and RGB inks loses changes.", "quantifier": "all operation histories", "why_tests_cant": "State-cache incoherence depends on history.", "anchors": ["coral/vector.py:Canvas.setgray", "coral/vector.py:Canvas.setcolor", "coral/vector.py:Canvas.setink", "coral/vector.py:Canvas.addpolygon"]}
{"id": "C66", "title": "Canvas bounding box", "statement": "If every shape has positive width and height, the canvas box covers every point drawn since the last resetbbox (discs, segments, image rectangles), each of its sides touches one of them, and it is zero if there are none; texts do not count; a shape with a zero-area box (a horizontal line) is not covered.", "quantifier": "all drawing histories", "why_tests_cant": "History property.", "anchors": ["coral/vector.py:Canvas.addpolygon", "coral/vector.py:Canvas.addpolyline", "coral/vector.py:Canvas.addcircle", "coral/vector.py:Canvas.addimage"]}
{"id": "C67", "title": "Fit-to-page transform", "statement": "Saving with a page size: in the interpreted file the transformation in force at every painting operator scales uniformly, maps every point drawn into the page with at least margin/2 on every side, centres the bounding box of the drawing and makes it touch that margin in its longer direction (exact arithmetic). It raises ZeroDivisionError exactly when nothing was drawn; without a page size saving always works.", "quantifier": "all bounding boxes, sizes and margins", "why_tests_cant": "All boxes.", "anchors": ["coral/vector.py:Canvas.save"]}
{"id": "C68", "title": "Text procedures are defined before use", "statement": "For every history the saved file contains, before the drawing lines, exactly the definitions of the text procedures used and of their helper, each once and the helper first, and interpreting it shows exactly the texts asked for. read_defs returns the blocks of any definitions file in order, except a last block without a blank line after it, which is dropped.", "quantifier": "all histories of addtext", "why_tests_cant": "History property.", "anchors": ["coral/vector.py:Canvas.addtext", "coral/vector.py:Canvas.save", "coral/vector.py:read_defs", "coral/defs.ps"]}
{"id": "C69", "title": "Image hex data", "statement": "addimage emits, for byte data, one line of two hex digits per byte for each complete row, which decode to the first width*height samples of the data, in order, incomplete last row dropped; interpreting the saved file shows exactly the images asked for. A value above 255 shifts the samples after it.", "quantifier": "all byte data and widths", "why_tests_cant": "All data.", "anchors": ["coral/vector.py:Canvas.addimage"]}
{"id": "C70", "title": "tqdm is a transparent iterator for sized iterables and fails for unsized ones", "statement": "Iterating tqdm over a sized iterable yields exactly its items in order whatever the clock does; over an iterable without len (and no total) it raises TypeError before yielding anything.", "quantifier": "all iterables, clock readings and option values", "why_tests_cant": "All clock behaviours.", "anchors": ["coral/tqdm.py:tqdm", "coral/tqdm.py:format_meter"]}
{"id": "C71", "title": "Status line leaves no residue", "statement": "After any sequence of status prints the terminal line shows the last status followed only by blanks; format_interval denotes the given number of seconds; the bar always has ten cells.", "quantifier": "all sequences of statuses, all times and counts", "why_tests_cant": "History property.", "anchors": ["coral/tqdm.py:StatusPrinter", "coral/tqdm.py:format_interval", "coral/tqdm.py:format_meter"]}
{"id": "C72", "title": "Shapefile geometry round trip", "statement": "Adding shapes with point(), line() and poly(), saving .shp and .shx under type 1, 3, 5, 8, 11, 21, 23 or 25 and opening them in a Reader yields the shapes that were added, in order, with bit-identical coordinates, part starts and correct bounding boxes, with or without the .shx file, by shapes(), iterShapes() and shape(i), after any earlier use of the Reader; measures are shown only when they occur with both signs. The Reader's type, box, elevation and measure ranges are those of the added vertices (the measure range includes 0). With the .shx file shape(i) takes negative indices like a list and raises IndexError outside; without it every index that is negative or too large raises TypeError.", "quantifier": "all programs that add any shapes and save them without an exception, all uses of the Reader", "why_tests_cant": "All shape lists and coordinates, and all histories of the Reader.", "anchors": ["coral/shapefile.py:Writer.saveShp", "coral/shapefile.py:Writer.saveShx", "coral/shapefile.py:Reader.shapes", "coral/shapefile.py:Reader.shape", "coral/shapefile.py:Reader.iterShapes"]}
{"id": "C73", "title": "Shapefile header length", "statement": "The file length recorded in the .shp and .shx headers equals the number of bytes written for types 1, 3, 5, 8, 11, 21, 23 and 25, and the .shx file has 100 bytes and 8 per shape; for type 28 the recorded length is not that of the file.", "quantifier": "all programs that add any shapes and save them", "why_tests_cant": "Arithmetic over all shape lists.", "anchors": ["coral/shapefile.py:Writer.__shpFileLength", "coral/shapefile.py:Writer.__shpRecords"]}
{"id": "C74", "title": "Shapefile writer failures", "statement": "Under a type with parts, saveShp raises UnboundLocalError if the first shape was added with point() or null() and AttributeError if only a later one was. It raises ValueError for a Writer without shapes or with a shape without points. Under types 13, 15 and 18 it always raises. A Writer without a type whose first shape is a point raises StructError.", "quantifier": "all programs that add such shapes, up to 4 GB of data", "why_tests_cant": "Universal failure statement.", "anchors": ["coral/shapefile.py:Writer.__bbox", "coral/shapefile.py:Writer.__shpRecords", "coral/shapefile.py:Writer.null"]}
{"id": "C75", "title": "Saving twice corrupts the index", "statement": "If shapes are added between two saves of the same Writer, the second pair of files gives all shapes sequentially, but shape(k) of a Reader with the .shx file returns shape k-n for every k from the number n of shapes at the first save on; without additions the second .shx file is identical to the first. Negative and invalid indices behave as for one save.", "quantifier": "all programs that save, add shapes and save again", "why_tests_cant": "History property.", "anchors": ["coral/shapefile.py:Writer.__shpRecords", "coral/shapefile.py:Writer.__shxRecords"]}
{"id": "C76", "title": "Attribute table round trip", "statement": "Saving a table of ASCII cells and reading the .dbf back returns the columns (names cut to ten characters, spaces as underscores) and, per record and in order, equal integers, floats with the same text, one upper-case letter for truth values and otherwise the text cut to the column and stripped; blank cells come back as bytes; this holds for records(), iterRecords() and record(i), whatever was read before; reading a table with no records raises struct.error. The file is at least as long as its header declares and longer exactly when a stored text is not ASCII, in which case later records are misread.", "quantifier": "all programs that declare columns and then add rows (by position or by name), in any order with shapes", "why_tests_cant": "All tables, rows and reading orders.", "anchors": ["coral/shapefile.py:Writer.saveDbf", "coral/shapefile.py:Reader.records", "coral/shapefile.py:Reader.record"]}
{"id": "C77", "title": "Record/shape pairing and negative indices", "statement": "After saving shapes and rows together, shapeRecords pairs the i-th shape with the i-th record as long as no record is deleted; with deleted records the remaining ones are paired with the first shapes, although shapeRecord(i) is right (None for a deleted record); indices -1..-(n-1) count from the end but -n and everything outside raises IndexError, in any order of calls.", "quantifier": "all files", "why_tests_cant": "All files and indices.", "anchors": ["coral/shapefile.py:Reader.shapeRecords", "coral/shapefile.py:Reader.__restrictIndex", "coral/shapefile.py:Reader.records"]}
{"id": "C78", "title": "Ring orientation and polygon grouping", "statement": "signed_area of a closed ring is half the sum of the cross products of its sides: it changes sign when the ring is reversed, does not change when the ring is moved or starts at another vertex, and adds up when the ring is cut along a chord; in double arithmetic it is exact for integer coordinates while the sum stays below 2^53 (beyond, the orientation can be lost, and for open rings the value depends on the place of the ring). __geo_interface__ splits the points at the part offsets and groups the rings so that concatenating the groups gives all rings in order, every group after the first starting with a clockwise ring and no group having another clockwise ring. Shapes read from a file have this view exactly when every ring after the first has two points; polygons of several rings still held by a Writer raise ValueError.", "quantifier": "all rings and part lists, all shape types, all shapes read back from saved files", "why_tests_cant": "All rings.", "anchors": ["coral/shapefile.py:signed_area", "coral/shapefile.py:_Shape.__geo_interface__", "coral/shapefile.py:Writer.poly"]}
{"id": "C79", "title": "sf2pf part splitting", "statement": "Splitting a shape's points at its part offsets yields parts whose concatenation is the point list, one part per offset.", "quantifier": "all point lists and non-decreasing offset lists starting at 0", "why_tests_cant": "All lists.", "anchors": ["coral/pf.py:sf2pf"]}
{"id": "C80", "title": "Saved pictures are valid PBM, PGM and PPM files", "statement": "Saving a canvas writes the magic number, width and height of the matching Netpbm format followed by exactly the raster that format prescribes (one byte per gray pixel, three per colour pixel, rows padded to whole bytes for bitmaps), and the sample of every pixel at its prescribed offset is the value read from the canvas.", "quantifier": "all canvases of all sizes and contents", "why_tests_cant": "All canvases.", "anchors": ["coral/raster.py:BWCanvas.save", "coral/raster.py:GrayCanvas.save", "coral/raster.py:ColorCanvas.save"]}
{"id": "C81", "title": "Anti-aliased line", "statement": "aaline writes two vertically adjacent pixels for each column strictly between the end columns of a flat line, with weights adding up to 1 whose centre of gravity is exactly on the line; a steep line is the transposed flat line, both directions of travel paint the same; it fails only when both end points coincide (ZeroDivisionError) or the colour of a gray canvas is a plain int (TypeError). Both end columns get the total weight that is right only for the left end (exact arithmetic).", "quantifier": "all rational end points", "why_tests_cant": "All end points.", "anchors": ["coral/raster.py:Canvas.aaline"]}
{"id": "C82", "title": "pprint aligns the columns", "statement": "pprint(table, keys) prints a header line, a rule and one line per row, all of the same length; column j of every line starts at the same offset, is as wide as the longest of its name and cells and padded with spaces on the right, columns are separated by ' | ' and the rule has a '+' exactly under each '|'; with keys None the columns are those of the first row and an empty table raises IndexError.", "quantifier": "all tables with the same columns in every row and all lists of these columns", "why_tests_cant": "All tables.", "anchors": ["coral/table.py:pprint"]}
{"id": "C83", "title": "Jaro-Winkler similarity", "statement": "jaro_winkler(s1,s2) is j + L/10*(1-j) where j = jaro(s1,s2) and L is the length of the common prefix, at most four; when jaro is at most 1 the result lies between jaro and 1 (exact arithmetic).", "quantifier": "all pairs of strings", "why_tests_cant": "The prefix rule has a break, a minimum of three lengths and slices; tests sample only a few prefixes.", "anchors": ["coral/names.py:jaro_winkler"]}
{"id": "C84", "title": "Oblique Mercator round trip", "statement": "ObliqMercator.rect2geo(geo2rect(lon, lat)) returns the original point (longitude modulo 360) for every point less than 90 degrees of longitude from the origin; at exactly 90 degrees geo2rect raises ZeroDivisionError; beyond, with an origin on the equator, the point that comes back is (180 - dlon, -lat) instead of (dlon, lat) (real arithmetic).", "quantifier": "all coordinates with latitudes strictly between the poles, all origins and radii", "why_tests_cant": "Analytic identity over a continuum; the quadrant is lost by atan.", "anchors": ["coral/proj.py:ObliqMercator"]}
{"id": "C85", "title": "Eckert IV: Newton iteration ends and the inverse is close", "statement": "EckertIV.geo2rect terminates for every point, the poles included, and rect2geo of the result gives the longitude (modulo 360) and a latitude whose sine differs by at most 4e-6/(2+pi/2) (real arithmetic).", "quantifier": "all coordinates with valid latitudes, all origins and radii", "why_tests_cant": "Termination of Newton's method for every start value, and an error bound over a continuum.", "anchors": ["coral/proj.py:EckertIV"]}
{"id": "C86", "title": "scale() is the derivative of the projection", "statement": "For Mercator and ConicEqualArea (central meridian), the derivative of y along the meridian is scale times the radius; for EMercator, scale times the ellipsoid's meridian radius of curvature (real arithmetic).", "quantifier": "all latitudes strictly between the poles, all radii, parallels and ellipsoids with 0 <= e < 1", "why_tests_cant": "A limit: no finite number of samples determines it.", "anchors": ["coral/proj.py:Mercator.scale", "coral/proj.py:EMercator.scale", "coral/proj.py:ConicEqualArea.scale"]}
{"id": "C87", "title": "Progress reports are throttled and truthful", "statement": "Every status that tqdm writes after delivering k items is the meter for exactly k items; a run over n items writes at most n/miniters + 3 times to its file and at most (elapsed time)/mininterval + 3 times; with leave the line left behind shows the meter for n items, without leave it is blank and a carriage return goes to standard output (not to the given file).", "quantifier": "all sized iterables, clocks, options", "why_tests_cant": "Every interleaving of clock readings and items, including clocks that jump.", "anchors": ["coral/tqdm.py:tqdm", "coral/tqdm.py:StatusPrinter"]}
{"id": "C88", "title": "Progress meter never shows completion early", "statement": "In double arithmetic, for totals up to 2^53, the bar has ten cells, the percentage lies in 0..100, and the full bar and 100% are shown exactly when all items are done; the percentage can be one too low (29 of 100 shows 28%).", "quantifier": "all counts and totals up to 2^53, all elapsed times", "why_tests_cant": "Depends on rounding of every quotient n/total.", "anchors": ["coral/tqdm.py:format_meter"]}
{"id": "C89", "title": "Frame points and paths", "statement": "For a positive scale, point() gives the floor cell of the projected point in both directions (i*scale <= x < (i+1)*scale). planify() divides by the scale, rounds half away from zero and simplifies: a closed path yields only snapped projections of its points and starts and ends with theirs; an open one is the first, the corners left after cancelling equal neighbours, and the last. Scale zero raises ZeroDivisionError. The two roundings disagree (0.6 of a cell is cell 0 for point() and 1 for planify()).", "quantifier": "all frames and projections, all paths and scales", "why_tests_cant": "All paths and scales.", "anchors": ["coral/frame.py:Frame.point", "coral/frame.py:Frame.planify"]}
{"id": "C90", "title": "Shapes are painted where they were asked for", "statement": "Interpreting the saved file, the path of every fill and stroke is exactly the circle, polyline, polygon or rounded polygon asked for, in order, if no circle directly follows a text or an unpainted shape; a circle after a text is joined to the end of the text by a line.", "quantifier": "all operation histories", "why_tests_cant": "All histories, through a scanner and interpreter of the file.", "anchors": ["coral/vector.py:Canvas.addcircle", "coral/vector.py:Canvas.addpolyline", "coral/vector.py:Canvas.addpolygon", "coral/vector.py:Canvas.addroundedpolygon", "coral/vector.py:Canvas.save"]}
{"id": "C91", "title": "Text anchors", "statement": "For each of the nine anchors, the text is shown where the anchor point of its box (corner, middle of a side or centre) is at the given position, whatever the font metrics; strings are not escaped: an unbalanced parenthesis makes the file unreadable and a backslash disappears.", "quantifier": "all operation histories, all font metrics, exact arithmetic", "why_tests_cant": "Depends on stack manipulations in the PostScript definitions.", "anchors": ["coral/vector.py:Canvas.addtext", "coral/defs.ps"]}
{"id": "C92", "title": "Canvas calls and their exceptions", "statement": "A drawing call succeeds exactly for usable inks (numbers and 3-tuples), known anchors, image width other than 0 and at least two points of a rounded polygon, and raises TypeError, AssertionError, ZeroDivisionError or ValueError otherwise; a failed call never changes the box, the background or the procedures used, and setink, addtext and addimage change nothing at all; a failed polygon leaves its path and an open gsave in the drawing.", "quantifier": "all calls on all canvases", "why_tests_cant": "All arguments and states.", "anchors": ["coral/vector.py:Canvas"]}
{"id": "C93", "title": "Shapefile saving succeeds", "statement": "Under types 1, 3, 5, 8, 11, 21, 23 and 25, saving .shp and .shx succeeds exactly when there is at least one shape, no shape is without points and, for types with parts, every shape was added with line() or poly(). Adding a shape fails (IndexError, Writer unchanged) exactly when a ring type is given an empty part.", "quantifier": "all programs that add any shapes, up to 4 GB of data", "why_tests_cant": "All shape lists.", "anchors": ["coral/shapefile.py:Writer.saveShp", "coral/shapefile.py:Writer.saveShx", "coral/shapefile.py:Writer.poly", "coral/shapefile.py:Writer.line", "coral/shapefile.py:Writer.point"]}
{"id": "C94", "title": "Shapefile byte layout", "statement": "For types 1, 3, 5, 8, 11, 21, 23 and 25 the saved files are, byte for byte, the header with type, bounds and ranges of the points added, and one record per shape (and index entry) in the layout of the shapefile format; the range of measures in the header always includes 0.", "quantifier": "all programs that add any shapes and save them", "why_tests_cant": "All shape lists.", "anchors": ["coral/shapefile.py:Writer.__shapefileHeader", "coral/shapefile.py:Writer.__shpRecords", "coral/shapefile.py:Writer.__shxRecords"]}
{"id": "C95", "title": "Attribute table byte layout", "statement": "Whenever saving the table succeeds, the .dbf is, byte for byte, the dBASE III header with date, counts and column descriptors followed by the rows: a space, then the UTF-8 bytes of every cell, numbers right-justified, truth values one letter, all else cut or filled up to the width in characters.", "quantifier": "all programs that declare columns and then add rows", "why_tests_cant": "All tables.", "anchors": ["coral/shapefile.py:Writer.saveDbf", "coral/shapefile.py:Writer.__dbfHeader", "coral/shapefile.py:Writer.__dbfRecords"]}
{"id": "C96", "title": "Saving a table succeeds or names its culprit", "statement": "Saving the table succeeds exactly when every cell can be written. It raises AssertionError only if some number is longer than its column or a truth value is in a column of width other than 1, IndexError only for an empty truth value, UnicodeError only for a surrogate, and nothing else. A table with a blank number, once read, cannot be saved again.", "quantifier": "all programs that declare columns and then add rows of code points", "why_tests_cant": "All tables.", "anchors": ["coral/shapefile.py:Writer.saveDbf", "coral/shapefile.py:Writer.__dbfRecords"]}
{"id": "C97", "title": "Adding rows to a table", "statement": "record() without columns raises IndexError; with fewer values than columns it raises IndexError and adds nothing, with more it ignores the rest, with none it adds nothing; by name it adds the values of the columns that are named, in column order: a missing name moves all later values to the left.", "quantifier": "all Writers, all positional and keyword arguments", "why_tests_cant": "All arguments.", "anchors": ["coral/shapefile.py:Writer.record"]}
{"id": "C98", "title": "Columns named Deletion...", "statement": "Saving the table removes from the Writer, for pairwise different columns, those whose name starts with Deletion, except a column directly after a removed one, whether saving succeeds or not.", "quantifier": "all Writers with pairwise different columns", "why_tests_cant": "A list is changed while it is iterated; the effect depends on runs of any length.", "anchors": ["coral/shapefile.py:Writer.__dbfHeader"]}
{"id": "C99", "title": "Opening a shapefile for editing", "statement": "An Editor opened on the three files that a Writer saved has the type of the file, the shapes and the rows as a Reader returns them and, as columns, the flag column and the columns of the file with the declared names and widths; if the table has columns but no rows, opening raises struct.error.", "quantifier": "all programs that add any shapes, columns and rows to a Writer and save it, for types 1, 3, 5, 8, 11, 21, 23 and 25", "why_tests_cant": "All lists of shapes, columns and rows.", "anchors": ["coral/shapefile.py:Editor.__init__", "coral/shapefile.py:Reader", "coral/shapefile.py:Writer.save"]}
{"id": "C100", "title": "Saving an opened shapefile again", "statement": "An Editor opened on files that a Writer saved, of type 1, 3, 5, 8, 11 or 21 and without blank cells, can be saved; the new files have the same records, the bounds of the vertices stored, ranges of z and m that are zero, and the rows that were read; opened again they give an Editor in the same state. For types 23 and 25 saving raises IndexError. Saving is not the identity on files (refuted: the ranges of z and m are lost).", "quantifier": "all programs that add any shapes, columns and rows to a Writer and save it", "why_tests_cant": "All lists of shapes, columns and rows; two passes through the files.", "anchors": ["coral/shapefile.py:Editor.__init__", "coral/shapefile.py:Writer.save", "coral/shapefile.py:Writer.__shapefileHeader"]}
{"id": "C101", "title": "Blank cells in an opened shapefile", "statement": "If a row of an opened file has a blank number, its table cannot be saved: saveDbf raises. Blank texts and truth values can be saved but do not stay blank (refuted: a blank text becomes b' and a blank truth value B).", "quantifier": "all programs that add any shapes, columns and rows to a Writer and save it, with one or more blank numbers", "why_tests_cant": "All tables.", "anchors": ["coral/shapefile.py:Editor.__init__", "coral/shapefile.py:Reader.__record", "coral/shapefile.py:Writer.__dbfRecords"]}
{"id": "C102", "title": "Deleting from a layer", "statement": "delete(shape=i) with i other than 0 removes exactly that shape, counted from the front or the back, or raises IndexError if there is none; delete(shape=0) and delete(shape=i, point=p) do nothing; deleting a part always raises TypeError or IndexError and changes nothing; in a layer of n points delete(point=p) removes p and its successors, as many as half of n, or raises IndexError after removing p and everything after it. The table is never changed, so later shapes no longer go with their rows (refuted: after deleting and saving, shapeRecord(0) pairs the second shape with the first row).", "quantifier": "all Editors, all indices", "why_tests_cant": "All layers; a list is changed while it is iterated.", "anchors": ["coral/shapefile.py:Editor.delete"]}
{"id": "C103", "title": "Adding points and balancing a layer", "statement": "Without part and point numbers point() appends one point and, with autoBalance, balances. balance() appends one null shape if there are fewer shapes than rows and otherwise changes nothing; it raises IndexError exactly if there are more shapes than rows and no columns. No call of point() changes a shape that exists: with the number of an existing shape and part, or an address, it raises TypeError. balance() does not keep shapes and rows in step (refuted).", "quantifier": "all Editors whose shapes are shapes, all arguments", "why_tests_cant": "All layers and arguments.", "anchors": ["coral/shapefile.py:Editor.point", "coral/shapefile.py:Editor.balance"]}
{"id": "C104", "title": "Points without z or m", "statement": "After point() without z or without m, whatever is added later, saving the shapes and saving the index raise; in a layer of points the exception is TypeError, or ShapefileException for a single point that has m but no z.", "quantifier": "all Editors, all later programs that add shapes, columns and rows", "why_tests_cant": "All layers; the failure comes from the header, which inspects all points.", "anchors": ["coral/shapefile.py:Editor.point", "coral/shapefile.py:Writer.__shapefileHeader", "coral/shapefile.py:Writer.saveShp", "coral/shapefile.py:Writer.saveShx"]}
{"id": "C105", "title": "An Editor is a Writer", "statement": "Without autoBalance a program has the same effect on an Editor as on a Writer: the same shapes, rows, exceptions and, after saving, the same files. With autoBalance, a program that succeeds has the effect on an Editor that the same program with some calls of null() directly after calls of point() has on a Writer.", "quantifier": "all programs that add shapes, columns and rows and then save, from any equal states", "why_tests_cant": "All programs.", "anchors": ["coral/shapefile.py:Editor", "coral/shapefile.py:Writer"]}
{"id": "C106", "title": "Exporting a drawing", "statement": "Canvas.export runs exactly one command, with the drawing that save writes in /tmp/tempeps.ps. Read as a POSIX shell does, for a device of plain characters and any path without a single quote, its words are gs with its options, the device, the output file with that path, and the drawing. It returns the status of the command; afterwards /tmp/tempeps.ps is gone, whatever was there before, and all other files are as the command left them. If the drawing cannot be saved, nothing is run or changed. Paths with a quote run other commands, and an image in /tmp/tempeps.ps is lost (both refuted).", "quantifier": "all canvases, sizes, margins, devices of plain characters, paths without quote and null, all behaviours of the shell", "why_tests_cant": "All paths and all behaviours of external programs.", "anchors": ["coral/vector.py:Canvas.export", "coral/vector.py:Canvas.save"]}
{"id": "C107", "title": "Exporting a file", "statement": "export runs exactly one command and returns its status; for plain paths and devices its words are gs with its options, the device, the output file and the drawing. A blank in the path of the image splits it into two words (refuted).", "quantifier": "all paths and devices of plain characters, all behaviours of the shell", "why_tests_cant": "All paths and all behaviours of external programs.", "anchors": ["coral/vector.py:export"]}
{"id": "C108", "title": "Animations", "statement": "A successful animation of n frames runs n commands that make one image each, with the drawing of that frame, and then one command that joins the images in the order of the frames; the images have different paths, numbered with the same count of digits, in the temporary directory, of which nothing is left. It returns the status of the last command only. All frames keep their contents but share one box: the smallest box around everything drawn in any frame, a fortieth wider on all sides. With solid drawings it succeeds whenever something is drawn; with a size and nothing drawn it raises ZeroDivisionError and runs nothing. Frames with flat drawings only do not count for the box, and failures to make an image go unnoticed (both refuted).", "quantifier": "all lists of frames, all devices, sizes and margins, all behaviours of the shell", "why_tests_cant": "All lists of frames and all behaviours of external programs.", "anchors": ["coral/vector.py:animation", "coral/vector.py:Canvas.export"]}
{"id": "C109", "title": "Distances returned by the P writer", "statement": "close() returns one distance for each stored point, in the order of the entities, parts and points: the one from the given point (normalised, without the repeated first point) to the point that the reader will return. This holds exactly in doubles too, whatever the distance function. In exact arithmetic each distance is at most the radius of the equator times half a code step in longitude plus half a step in latitude, in radians, of the stored box. A distance function that does not raise changes nothing else.", "quantifier": "all lists of entities of any size, all code sizes, doubles and rationals", "why_tests_cant": "All coordinates and numbers of points; the bound is for all real distances.", "anchors": ["coral/pf.py:Writer.write", "coral/pf.py:Writer.close", "coral/coord.py:haversine"]}
{"id": "C110", "title": "Shapefile conversion", "statement": "sf2pf of a saved shapefile of lines or polygons behaves like writing the geometry of each shape, in order, under the name computed from its record, and closing: the P file read back has these names and code size, for each shape the same number of parts and points, and the returned distances are those between given and read points. Surplus shapes or records are ignored. A wrong size raises ValueError, an exception of the name function is passed on, and shapes without parts (points, multipoints) raise AttributeError; then no P file is written. When records have been deleted, later shapes get wrong names (refuted).", "quantifier": "all programs of a shapefile Writer, all name functions, all sizes, with or without .shx", "why_tests_cant": "All geometries, tables and name functions; composition of two file formats.", "anchors": ["coral/pf.py:sf2pf", "coral/shapefile.py:Reader.shapeRecords", "coral/pf.py:Reader"]}
{"id": "C111", "title": "Reading arbitrary bytes as shapes", "statement": "Reader over any bytes as .shp opens exactly when there are at least 100 of them (else struct.error), and its type, box, elevation and measure are the numbers at their places. shapes() then returns one shape per record, with the record's type, following the declared lengths to the end of the file, or raises struct.error, TypeError only if a record has type 18 or 28, ValueError only if a length leads before the start of the file, and nothing else; iterShapes() agrees. It ends whenever every record lies after the one before, but a null record that declares a length of -4 words is read for ever. A file with a multipoint-Z record (type 18) is never read, and one with a multipoint-M record (type 28) only if the measure range in its header contains 0.", "quantifier": "all byte strings, any size", "why_tests_cant": "All files, including hostile ones.", "anchors": ["coral/shapefile.py:Reader.__init__", "coral/shapefile.py:Reader.shapes", "coral/shapefile.py:Reader.iterShapes"]}
{"id": "C112", "title": "Reading arbitrary bytes as a table", "statement": "Reader over any bytes as .dbf either raises struct.error, AssertionError or UnicodeError, or has exactly the declared number of rows and columns, each with its declared width and decimals. records() of a table that declares rows then returns no more rows than declared, all of the same number of cells, and only if the file holds all the declared rows; it raises struct.error only if the file is too short for them, and otherwise only UnicodeError or ValueError.", "quantifier": "all byte strings, any size", "why_tests_cant": "All files, including hostile ones.", "anchors": ["coral/shapefile.py:Reader.__init__", "coral/shapefile.py:Reader.records"]}
{"id": "C113", "title": "Reading arbitrary bytes as a P file", "statement": "Reader over any bytes raises AssertionError, TypeError, struct.error or UnicodeError, or opens, or never ends; how it ends can be told after as many steps as there are bytes. It never ends when the file is cut before the end of the first name. Once open, read(i) raises IndexError exactly when i is not an entity, struct.error exactly when the points of entity i are not all in the file, and otherwise returns parts of the declared numbers of points.", "quantifier": "all byte strings, any size, all entity numbers", "why_tests_cant": "All files, including truncated and hostile ones.", "anchors": ["coral/pf.py:Reader", "coral/pf.py:readascii"]}
{"id": "C114", "title": "Boxes with floating-point corners", "statement": "For boxes whose corners are doubles up to 2**500 and whose sides are zero or at least 2**-500 long, the operations are exact although the area is computed with rounding: a box is true exactly when both sides are positive, a point or a box is in a box exactly when its exact coordinates are, a & b is exactly the set of common points and the empty box if there are none, a | b is the least box around two boxes with area and ignores one without, collide() tells whether there is a common point, and the center lies within the box. translate() keeps the corners in order but can round the width to zero, and the center of a box near the largest double is infinite.", "quantifier": "all such pairs of boxes and all points", "why_tests_cant": "All doubles; wrong results appear only at extreme magnitudes.", "anchors": ["coral/bbox.py:BBox.__and__", "coral/bbox.py:BBox.__or__", "coral/bbox.py:BBox.__contains__", "coral/bbox.py:BBox.collide", "coral/bbox.py:BBox.center"]}
{"id": "C115", "title": "What the bytes of any table say", "statement": "For any bytes that open as a .dbf and declare rows, fields are the declared columns (name up to a zero byte, type letter, width, decimals). record(i) is row i, counted from either end: struct.error if the file does not hold it, None if its mark is not a space, and otherwise its cells in order, cut out of the file at the declared widths, or the error of the first bad one. A blank cell is its bytes; a cell of an \"N\" column, without zero bytes and white space, is an int or, with decimals, a float, 0 if nothing is left, and ValueError if the text is not a number; any other cell is its UTF-8 text without white space at the ends, or UnicodeError. records() returns the rows that are not deleted or raises the error of the first bad row, iterRecords() gives the rows before it, and record() still reads the rows after it. Nothing else can come back.", "quantifier": "all byte strings that open and declare rows, all row numbers, all earlier calls of record()", "why_tests_cant": "All files; texts of numbers have underscores, signs, exponents, inf and nan, and a bad row matters only to some calls.", "anchors": ["coral/shapefile.py:Reader.record", "coral/shapefile.py:Reader.records", "coral/shapefile.py:Reader.iterRecords"]}
{"id": "C116", "title": "What the bytes of any P file say", "statement": "Bytes open as a P file exactly when they are: PF, a zero byte, the code size 1, 2, 4 or 8, a number (anything), the number of entities, the index, and the data. A number is spelt seven bits a byte, leading zeros allowed; each entity of the index is an ASCII name ended by a zero byte, the number of parts, four 16-bit corners on the world grid, and the number of points of each part. names, the lengths of the parts, the boxes and the start of the data are then what the index spells, in exact and in double arithmetic, and there is only one way to read the bytes. read(i) of an entity whose points are in the file returns its parts, and point j is placed within the box in proportion to the two codes found after the points of the earlier entities.", "quantifier": "all byte strings, all entity numbers counted from either end", "why_tests_cant": "All files, including those no Writer has produced.", "anchors": ["coral/pf.py:Reader", "coral/pf.py:readvlv", "coral/pf.py:readascii"]}
{"id": "C117", "title": "What the bytes of any .shp file say", "statement": "The bytes of a .shp file determine its shapes: the record at an offset describes one shape at most - single points, null shapes, lines, polygons and patches with their parts, part types, elevations and measures, a measure at or below -1e39 counting as missing - and the next record is where its length says. shapes() returns exactly those shapes or raises; iterShapes() yields the shapes before the first record that cannot be read, and raises exactly if there is one. shape(i) without an index file counts the records, and a negative or too large i is a TypeError. With an index file it reads the record at the place of entry i, counted from either end: IndexError if there is no such entry, ValueError if its offset is negative, and the record at that place or an error otherwise; an entry 0 counts as none. If the index file ends too early, the first call raises struct.error, and the entries read so far answer every later one. All of it after any earlier calls of shape() and shapes().", "quantifier": "all byte strings that open as .shp, all .shx byte strings, all indices, all earlier calls", "why_tests_cant": "All files, including those no Writer has produced; a wrong answer may depend on an earlier failed call.", "anchors": ["coral/shapefile.py:Reader.shapes", "coral/shapefile.py:Reader.iterShapes", "coral/shapefile.py:Reader.shape"]}
{"id": "C118", "title": "P files in floating point", "statement": "With doubles and codes of 1, 2 or 4 bytes: write() accepts every entity of points in the world whose rings are at least 2^-20 degrees wide and high, stores the tightest box of grid coordinates around it (up to 2^-40 degrees), and never runs out of the code range, whatever the rounding. Reading a file back returns, for every point with |longitude| < 2^56 and |latitude| < 2^55, the point that differs from it by exact multiples of 360 and 180 degrees, within half a code step plus 2^-40 degrees. write() of any doubles returns exactly when every longitude is nan or within 2^62 and every latitude is nan or between -2^61 and 90; otherwise it never returns, also for infinities.", "quantifier": "all double coordinates, all writers reached by any calls, all files written by any sequence of accepted writes, no bound on steps", "why_tests_cant": "Rounding errors at particular coordinates push a code out of range or a point past its tolerance; termination cannot be tested.", "anchors": ["coral/pf.py:Writer.write", "coral/pf.py:Writer.close", "coral/pf.py:Reader"]}
{"id": "C119", "title": "Coordinates beside a canvas", "statement": "Any pair of integers is a pixel number y*width+x. On a grayscale canvas, numbers from -width*height to width*height-1 read and write exactly one pixel - negative ones count from the end, x beyond the row continues in the next row - and all others raise IndexError, for every colour. On a black-and-white canvas the same holds with the row rounded up to whole bytes, and the padding at the end of a row is never seen. On a colour canvas the same holds except that number -1 cannot be read or blended (ValueError), an opaque write to it lands in the last pixel and pushes the former last pixel below the canvas, numbers beyond the canvas cannot be read or blended, and an opaque write above the canvas moves the whole picture on by one pixel.", "quantifier": "all canvas sizes and contents, all integer coordinates, all colours", "why_tests_cant": "The effect depends on the sign of y*width+x and on one exceptional number; nothing is raised where the picture is damaged.", "anchors": ["coral/raster.py:GrayCanvas", "coral/raster.py:BWCanvas", "coral/raster.py:ColorCanvas"]}
{"id": "C120", "title": "What the projections preserve", "statement": "Near any point, Mercator (on the sphere and on an ellipsoid), transverse Mercator, oblique Mercator and the stereographic projection draw every small distance, whatever its direction, longer by one and the same factor and keep left and right: small shapes stay as they are. For the Mercator projections scale() returns this factor, for the stereographic one it is 2/(1+cos d), d the angular distance from the origin. The azimuthal and the conic equal-area projections draw every small area in the size it has on the sphere; the conic crosses parallels and meridians at right angles, stretching north-south distances by scale() and dividing east-west ones by it.", "quantifier": "all origins, radii, ellipsoids, standard parallels and points, except the poles, the antipode of an azimuthal origin, the meridians where a map is cut, and the meridians a quarter turn away for the transverse and oblique maps", "why_tests_cant": "A statement about derivatives in every direction at every point.", "anchors": ["coral/proj.py:Mercator", "coral/proj.py:EMercator", "coral/proj.py:TransMercator", "coral/proj.py:ObliqMercator", "coral/proj.py:Stereographic", "coral/proj.py:AzimuthalEqualArea", "coral/proj.py:ConicEqualArea"]}
{"id": "C121", "title": "Points inside lists", "statement": "Editor.point() called with a shape number that is out of range puts an empty list among the shapes. In such a list, point(addr=(i, j, k)) replaces exactly that point and adds none, and raises IndexError, changing nothing, if there is no such part or point; point(shape=, part=, point=) stores the given coordinates that are not 0 in that point and also adds the point as a new shape; point(shape=, part=) does so for every point of the part. A point number that is out of range appends an empty point and raises IndexError, except that the number just before the first point changes the first point.", "quantifier": "all layers, all lists among their shapes, all numbers from either end, all coordinates", "why_tests_cant": "Any nesting of lists and any numbers; most wrong calls change the layer before they fail.", "anchors": ["coral/shapefile.py:Editor.point"]}
{"id": "C122", "title": "Anti-aliased lines in floating point", "statement": "With doubles, on a grayscale or colour canvas of up to 2^20 pixels a side: aaline between two different points succeeds if each is a whole point outside the last row and column, or any point at least one pixel from the first and two from the last row and column. Every pixel then has a value between its old one and the ink, and only pixels within a pixel (plus 2^-10) of the line, between its ends, change. In every column between the ends of a flat line the two weights add up to 1 up to 2^-53 and their centre of gravity is within 2^-10 of the line, in spite of the accumulated rounding. Blending with a weight within 2^-10 of [0,1] gives a value between the two colours, within 1/2 + 2^-42 of the exact mixture. A horizontal line of whole points in the last row always fails (IndexError, ValueError on a colour canvas), although it is on the canvas; near the top edge a weight can be so negative that a byte overflows.", "quantifier": "all double end points with these positions, all canvas sizes up to 2^20, all contents and inks", "why_tests_cant": "The error of the running ordinate grows with the length of the line and with particular slopes; a byte overflow needs particular background, ink and slope.", "anchors": ["coral/raster.py:BaseCanvas.aaline", "coral/raster.py:GrayCanvas.blend", "coral/raster.py:ColorCanvas.blend", "coral/raster.py:nearest"]}
{"id": "C123", "title": "Anti-aliased outlines", "statement": "With doubles, strokepolygon with anti-aliasing (the default of grayscale and colour canvases) of points that lie on the canvas as in the previous property, no two neighbours equal, succeeds, leaves every pixel between its old value and the ink, and changes only pixels within a pixel (plus 2^-10) of one of the sides, the closing side included. If two neighbours are equal, the last and the first point included, it raises ZeroDivisionError: a ring that repeats its first point at the end, as rings from a shapefile do, and a single point can never be stroked.", "quantifier": "all polygons of any number of double points, all canvas sizes up to 2^20, all contents and inks", "why_tests_cant": "Any number of sides in any direction; tests draw open rings.", "anchors": ["coral/raster.py:BaseCanvas.strokepolygon", "coral/raster.py:BaseCanvas.aaline"]}
{"id": "C124", "title": "Gradients in double arithmetic", "statement": "With doubles for positions (at most a million away from 0) and components (of size at most 1024), get(x) for x in [0, 1] or between two stops never fails; at a stop it returns exactly the colour of the first stop given for that position; elsewhere every component is within 2^-38 of the value interpolated exactly between the neighbouring stops. With components in [0, 1], hex(x) for x in [0, 1] is '#' and one hexadecimal digit per component: for the exact component v the digit d satisfies d - 10^-9 <= 15 v < d + 1 + 10^-9. Beyond 1 and beyond every stop, get raises IndexError.", "quantifier": "all lists of stops in any order, of any length, with any finite doubles in these ranges, and all doubles x", "why_tests_cant": "Tests compare a few colours with a tolerance; stops very close to each other, or a position next to a stop, are where the divisions lose precision.", "anchors": ["coral/gradient.py:Gradient.__init__", "coral/gradient.py:Gradient.get", "coral/gradient.py:Gradient.hex"]}
{"id": "C125", "title": "Real fields of grid files in double arithmetic", "statement": "With doubles, a real field of 1, 2, 4 or 8 bytes whose bounds are at least 2^-100 apart and at most M <= 2^100 in size stores and reads back a value within half a step plus 2^-45 M. A value outside the bounds raises AssertionError; one inside can always be stored in a nullable field, and in other fields unless it is within half a step (plus 2^-48 of the range) of the maximum, which itself never can (struct.error). Every string of bytes of the right length can be read. Codes do not drift: reading and storing again gives the same bytes if the step is at least 2^-40 M and the code is below the number of steps. The last code of a nullable field can be read as a number above the maximum, and then cannot be stored again.", "quantifier": "all double bounds and values in these ranges, all sizes of fields, all stored bytes", "why_tests_cant": "The errors of five roundings in a row depend on the particular bounds and codes.", "anchors": ["coral/grid.py:FVar.encode", "coral/grid.py:FVar.decode", "coral/grid.py:FVar.index", "coral/grid.py:FVar.value"]}
{"id": "C126", "title": "Statistics in double arithmetic", "statement": "For tuples of up to 2^20 finite doubles of size at most 2^100, whatever was called before with such arguments: sum is a double nearest to the exact sum; max, min and len are exact; avg is within 2^-51 of the mean, relatively; var is never negative and within a relative 2^-50 of the variance plus about 2^-99 of the squared mean, and std_dev is always answered and is a double nearest to the square root of var; covar of n pairs is within (n+4) 2^-52 of the product of the two deviations, up to what the rounded averages add; corr is at most 1 + (n+16) 2^-52 in size if both variances are at least 2^-500. Empty sequences raise ZeroDivisionError (ValueError from max and min), a shorter second sequence IndexError. Cached answers have the value that a first call gives; but a zero can have the other sign, because 0.0 and -0.0 are the same key. The average of three 0.1 is greater than 0.1, so their variance is not 0 and their correlation is answered instead of failing.", "quantifier": "all histories of calls and all tuples of finite doubles in these ranges, of any length up to 2^20", "why_tests_cant": "The error of the running sum in covar grows with the length and with cancellation; a negative variance or a correlation far above 1 would need particular data.", "anchors": ["coral/stats.py:sum", "coral/stats.py:max", "coral/stats.py:min", "coral/stats.py:len", "coral/stats.py:avg", "coral/stats.py:var", "coral/stats.py:std_dev", "coral/stats.py:covar", "coral/stats.py:corr"]}
{"id": "C127", "title": "Rounding and simplification in double arithmetic", "statement": "nearest(x), which rounds halves away from zero, is right for every finite double except two kinds, for which it is one too far from zero: the largest double below one half (answer 1) and the odd integers between 2^52 and 2^53; infinities raise OverflowError and NaN ValueError. With doubles for the coordinates and the cell size, simplify moves each vertex to a cell at most half a cell away (plus 2^-53 of cell and coordinate), and then keeps the corners of that snapped path as in exact arithmetic: first and last vertex, spikes cancelled, nothing invented; closed paths likewise. With a power of two as cell size the result is that of exact arithmetic; with other sizes a point nearly in the middle can fall into the neighbouring cell. A cell size of zero raises ZeroDivisionError.", "quantifier": "all finite doubles; all paths of any length whose coordinates are below 2^52 cells, all buffer sizes that are powers of two", "why_tests_cant": "The exceptions of the rounding are single values among 2^64; whether a quotient is rounded over the middle of a cell depends on the particular coordinate and size.", "anchors": ["coral/coord.py:nearest", "coral/coord.py:sqr_fit", "coral/coord.py:simplify"]}
{"id": "C128", "title": "Angles brought into one turn, in double arithmetic", "statement": "With doubles, corangle of any angle up to 2^50 in size terminates with a result between -math.pi and math.pi, which is whole turns of 2*math.pi away from the angle up to 2^-53 of the angle for every turn; up to 4*math.pi the result is exact, and an angle between -math.pi and math.pi comes back unchanged. Beyond that it is not exact in general: 100.25 is off by 5*2^-47.", "quantifier": "all doubles of size at most 2^50", "why_tests_cant": "The number of steps grows with the angle, and the error of each step depends on its bits; above 2^56 the loop never ends.", "anchors": ["coral/proj.py:corangle"]}
{"id": "C129", "title": "Scan conversion and filled polygons in double arithmetic", "statement": "With doubles for the running abscissa, scanpolygon of a polygon with integer vertices (abscissas up to 2^20 in size, rows between 0 and the height, height at most 2^20) succeeds; every row holds, sorted, exactly one mark for each side that crosses it, with the direction of the side and within half a pixel plus 2^-10 of the exact crossing, exactly at the abscissa for vertical sides. Unless a crossing is within 2^-10 of the middle between two pixels, these are the marks of exact arithmetic. With non-negative abscissas, the three kinds of canvases are then painted exactly between such marks, and unchanged elsewhere.", "quantifier": "all integer polygons of any number of vertices in these ranges, all rows, all canvas contents and inks", "why_tests_cant": "The abscissa of a row is the sum of up to a million rounded steps; the accumulated error depends on the slope and the height.", "anchors": ["coral/raster.py:BaseCanvas.scanpolygon", "coral/raster.py:BaseCanvas.fillpolygons"]}
{"id": "C130", "title": "String similarity and matching of names in double arithmetic", "statement": "For strings of up to 2^24 characters, with doubles: strerr raises what it raises in exact arithmetic and is otherwise within a relative 2^-52 of it. mapping pairs the same keys with the same values in the same order as with exact scores, each score within 2^-51: rounding never changes a match. jaro is within a relative 2^-49 of the exact similarity, is exactly 1 between a string and itself, and is between 0 and 1 where the exact one is; there jaro_winkler is between jaro and 1, within 2^-48 of the exact value.", "quantifier": "all strings of up to 2^24 characters, all lists of keys and values", "why_tests_cant": "Whether rounding reorders two nearly equal scores depends on the lengths and distances, of which there are too many to try; a similarity above 1 by one unit in the last place would need a particular triple of quotients.", "anchors": ["coral/names.py:strerr", "coral/names.py:mapping", "coral/names.py:jaro", "coral/names.py:jaro_winkler"]}
{"id": "C131", "title": "Area, translation and scaling of boxes in double arithmetic", "statement": "For boxes with double corners up to 2^500 whose sides are zero or at least 2^-500: area() is within a relative 2^-50 of the exact area, and boxes with ordered corners whose areas differ by more than a relative 2^-48 are ordered by area. translate() rounds each corner once, keeps the corners in order, and keeps the points of the box, moved alike, between the corners, but not always in the box. scale(f) of a box with coordinates up to m <= 2^100 is within 2^-50 m (1+|f|) of the exact corners, and its corners are in order for f >= 0; division by zero raises ZeroDivisionError, and division by f scales by the double nearest to 1/f.", "quantifier": "all boxes with finite double corners in these ranges, all double offsets and factors", "why_tests_cant": "Tests use small integers, for which no rounding happens; whether a point is lost by a translation depends on the magnitudes.", "anchors": ["coral/bbox.py:BBox.area", "coral/bbox.py:BBox.__lt__", "coral/bbox.py:BBox.translate", "coral/bbox.py:BBox.__add__", "coral/bbox.py:BBox.scale", "coral/bbox.py:BBox.__mul__", "coral/bbox.py:BBox.__truediv__"]}
{"id": "C132", "title": "The diagonal of a box", "statement": "hypot() of a box is the distance between its corners: the non-negative number whose square is the sum of the squares of the sides. For a box with ordered corners it is the greatest distance between two points of the box, at least each side and at most their sum; it is zero only if the corners coincide. Translating a box does not change it, and scaling by f multiplies it by |f|.", "quantifier": "all boxes with real corners, all offsets and factors", "why_tests_cant": "The diameter property is about every pair of points of every box.", "anchors": ["coral/bbox.py:BBox.hypot", "coral/bbox.py:BBox.translate", "coral/bbox.py:BBox.scale"]}
{"id": "C133", "title": "Compass directions and collinearity in double arithmetic", "statement": "For a double bearing b of size up to 2^50, bearing2cardinal names a wind at most 11.25 degrees plus (|b|+360) 2^-53 + 2^-43 from it, and bearing2hours gives an hour above 0 and at most 12 with the same accuracy; infinities and NaN raise ValueError in bearing2cardinal. collinear is exact for points with integer coordinates up to 2^25, and answers True for any doubles up to 2^500 when two of the points coincide or all three lie on a line along an axis; whenever it answers True, the two products it compares differ by at most 2^-50 of their size in exact arithmetic. Points on a common line are not always recognised when coordinates differ by more than 2^53 in size.", "quantifier": "all double bearings up to 2^50, all triples of points with double coordinates up to 2^500", "why_tests_cant": "Float remainders just below a full turn, and differences that are rounded, need particular values.", "anchors": ["coral/coord.py:bearing2cardinal", "coral/coord.py:bearing2hours", "coral/coord.py:collinear"]}
{"id": "C134", "title": "What boxes, buffers and grid variables print as", "statement": "eval(repr(b)) is the box b for every box with integer corners, so different boxes print differently; BBox with three arguments or more raises an Exception. eval(repr(b)) of a buffer is an empty buffer of the same size, whatever b holds; str(b) tells the items of buffers of integers apart. The text repr() gives for an IVar, FVar or SVar leaves out the name, so evaluating it does not make the variable again: it fails an assertion, or makes a variable with other bounds or size (refuted as a round trip, with the exact outcome). str() of a variable tells its kind, its name, its bounds or size and whether it is nullable, whatever characters the name has.", "quantifier": "all boxes with integer corners, all buffers, all grid variables with integer bounds and any name", "why_tests_cant": "That no two variables share a description is about all pairs of names and bounds, including names that look like a description.", "anchors": ["coral/bbox.py:BBox.__repr__", "coral/bbox.py:BBox.__init__", "coral/coord.py:Buffer.__repr__", "coral/coord.py:Buffer.__str__", "coral/grid.py:IVar.__repr__", "coral/grid.py:IVar.__str__", "coral/grid.py:FVar.__repr__", "coral/grid.py:FVar.__str__", "coral/grid.py:SVar.__repr__", "coral/grid.py:SVar.__str__"]}
{"id": "C135", "title": "Gini coefficients in double arithmetic", "statement": "For two or more doubles, not too large or too many, whose mean is at least 2^-499: gini_kakwani answers the same number whatever was called before, never a negative one, off the exact coefficient by at most (n(n-1)/2 + 8) times 2^-52 of it (plus 2^-500); gini_deaton of numbers that are not negative is off by at most (3n+40) times 2^-52. gini_deaton gives the same answer for every order of the numbers; gini_kakwani does not (0.1, 1, 0.2 against 1, 0.1, 0.2). For equal numbers gini_kakwani answers exactly 0, while gini_deaton answers less than 0 for 0.1 and 0.1. With fewer than two numbers, or numbers whose exact sum is 0, both raise ZeroDivisionError.", "quantifier": "all sequences of up to 2^20 finite doubles of size at most 2^100, all orders, all histories of calls", "why_tests_cant": "The error bound has to hold for every sequence of doubles, and the order in which Kakwani's formula adds n(n-1)/2 differences gives far too many rounding patterns to try; negative answers show up only for some values.", "anchors": ["coral/stats.py:gini_kakwani", "coral/stats.py:gini_deaton", "coral/stats.py:avg", "coral/stats.py:sum"]}
{"id": "C136", "title": "The canvas box and the page in double arithmetic", "statement": "For drawings with double coordinates, neither huge nor tiny nor too small for where they are: the canvas box is the empty box if nothing was drawn since the last resetbbox; otherwise it covers every point drawn since, up to 2^-51 of its largest coordinate in each direction, and each side is as close to something drawn. save(path, size, margin) raises ZeroDivisionError if nothing was drawn; otherwise the translation, scale and translation that it writes put the centre of the box at the centre of the page, scale by (size - margin) / longer side, and keep every drawn point at least margin/2 from the edges of the page, all up to size times 2^-51 plus twice the error of the box at that scale. A circle of radius 1 centred at 2^60 is lost from the box when the next shape is drawn (refuted without the size condition).", "quantifier": "all histories of drawing calls with finite double coordinates within the stated ranges, all page sizes and margins with size - margin at least 2^-400, all drawn points", "why_tests_cant": "Rounding in the corners, the centre and the scale adds up differently for every drawing; a point off the page by less than a pixel, or a shape that vanishes from the box, is not seen in sample pictures.", "anchors": ["coral/vector.py:Canvas.save", "coral/vector.py:Canvas.addcircle", "coral/vector.py:Canvas.addpolygon", "coral/vector.py:Canvas.addpolyline", "coral/vector.py:Canvas.addimage", "coral/bbox.py:BBox.__or__", "coral/bbox.py:BBox.center"]}
{"id": "C137", "title": "The centroid lies inside the polygon", "statement": "The centroid that geocentroid takes of each projected polygon lies in every half-plane that contains the polygon, in particular in its bounding box, whenever the edges go round some point of it in one sense, as those of convex polygons do. Its weight is then positive or negative according to the sense. Linear maps of the plane carry centroids to centroids. Several such polygons of one sense have their common centroid in every half-plane that contains them all, so the point geocentroid answers is the image of a point of the hull of the projected region. For an outline that crosses itself the centroid can lie outside its box.", "quantifier": "All polygons with real coordinates and any number of vertices, all half-planes, all linear maps with nonzero determinant, all regions for which geocentroid returns.", "why_tests_cant": "Being inside is a claim about every half-plane and every polygon; tests try a few shapes with a tolerance.", "anchors": ["coral/coord.py:geocentroid"]}
{"id": "C138", "title": "What the bytes of any RangeGrid file say", "statement": "Whatever bytes rg.Reader is given, it raises NameError (collections is never imported) exactly when they are laid out as a RangeGrid file with sound columns and the index can be read; with the import added it returns exactly then, if namedtuple takes the column names, with the variables the bytes state: names, kinds, bounds, nullability and the sizes of real and string columns, while the size of an integer column is the least that fits and not the one in the file. The bytes have one reading only. Other exceptions are AssertionError, TypeError, struct.error, UnicodeError and ValueError. It ends within as many reads as there are bytes, or never, as with a column name without terminator.", "quantifier": "All sequences of bytes for the .rg file, all texts for the .md file, any number of columns and any bounds.", "why_tests_cant": "Arbitrary bytes cannot be enumerated, and both directions (accepts exactly the layout) need a claim about every sequence.", "anchors": ["coral/rg.py:Reader", "coral/rg.py:readvlv", "coral/rg.py:readsvlv", "coral/grid.py:IVar", "coral/grid.py:FVar", "coral/grid.py:SVar"]}
{"id": "C139", "title": "Decimal numbers in attribute tables", "statement": "The text of a number cell with decimals becomes the double nearest to the number it stands for, to the even one in case of a tie, with its sign (also of zero); from 2^1024 - 2^970 on it becomes an infinity; inf, infinity and nan are taken in any case; every other text raises ValueError. So reading keeps the order of numbers, texts of the same number (other than zero) give the same double, numbers that a double can have are read exactly, the seventeen significant digits nearest to a double read back as that double, and numbers of up to fifteen digits with equally many decimal places stay apart and in order.", "quantifier": "All byte strings, with any number of digits, underscores and any exponent; all doubles for reading back.", "why_tests_cant": "Rounding depends on every digit of texts of unbounded length; a wrong tie, a double rounding or a boundary of overflow shows on few of them.", "anchors": ["coral/shapefile.py:Reader"]}
{"id": "C140", "title": "Floats survive the attribute table", "statement": "The text that is written for a float is the shortest one that reads as this float, and of those the nearest: it reads back as exactly the same double (infinities, nan and minus zero included), no two doubles share a text, and it never has more than 24 characters. So every float written into a number column with decimals whose text fits (always, with 24 characters) comes back from the table as the same double.", "quantifier": "All doubles; all tables with any number of rows and columns.", "why_tests_cant": "There are 2^64 doubles, and shortest digits go wrong on few of them (powers of two, subnormals, ties).", "anchors": ["coral/shapefile.py:Writer", "coral/shapefile.py:Reader"]}
{"id": "C141", "title": "Boxes and real variables with floats, in print", "statement": "repr() of a box whose corners are ints or finite floats, in any mixture, is a text that eval() turns into a box with the very same corners, of the same types and bit for bit (negative zero included); a text stands for at most one box. A box with an infinite or undefined corner prints a text that eval() makes no box of, yet any two boxes with different corners, infinite ones included, print different texts. The same holds of the two texts of a real grid variable: they tell apart any two variables that differ in what the texts show (bounds and nullability, and the name or the size).", "quantifier": "all boxes with int or double corners (all doubles), all texts, all real variables with any names, int or double bounds and any sizes", "why_tests_cant": "Whether every double is printed with enough digits, and whether no text of one box is the text of another, is a matter of all 2^64 doubles in each corner; a test prints a few.", "anchors": ["coral/bbox.py:BBox.__repr__", "coral/bbox.py:BBox.__init__", "coral/grid.py:FVar.__repr__", "coral/grid.py:FVar.__str__"]}
{"id": "C142", "title": "Numbers in drawing files", "statement": "Whatever is drawn on a canvas (circles, lines, polygons, texts with balanced parentheses, images, widths, dashes and inks), with coordinates that are ints or finite floats in any mixture, the characters that save() writes split into PostScript tokens exactly as intended: no number runs into a word, and in the place of each number stands one numeral whose value is that very number, an int for an int and the same double, bit for bit, for a float. An infinite or undefined number becomes a word that is no numeral, so such a drawing is saved as a broken file without an exception.", "quantifier": "all histories of canvas calls (any lengths), all backgrounds, sizes and margins, all ints and all finite doubles, and any arithmetic that computes the derived numbers", "why_tests_cant": "A number printed with too few digits, or without a blank beside it, shows only for certain values and certain sequences of calls; a test draws a few shapes with short coordinates.", "anchors": ["coral/vector.py:Canvas.save", "coral/vector.py:Canvas.setdash", "coral/vector.py:Canvas.addpolyline", "coral/vector.py:Canvas.addpolygon", "coral/vector.py:Canvas.addtext", "coral/vector.py:Canvas.addimage"]}
{"id": "C143", "title": "Frame files as text", "statement": "A frame file, read with json.load, gives back every setting of the saved frame under the keys load() looks at: the class name, the two numbers of the centre, the radius or the four ellipsoid numbers, and the four bounds, each of the same type (int or float) and bit for bit, with infinite, undefined and negative zero values included. Hence two frames that differ in any of these have different files. The same holds of any document of numbers, plain strings, lists and dictionaries, however deeply nested: what json.dump writes with indentation, json.load reads back unchanged.", "quantifier": "all frame settings with ints of any size and all doubles, spherical or ellipsoidal; all documents of any depth and width with int or double numbers and strings and keys of printable ASCII without quotation marks and backslashes", "why_tests_cant": "That the shortest digits of every double read back as the same double, between any separators and at any depth, concerns all doubles and all nestings; a test saves a few frames.", "anchors": ["coral/frame.py:Frame.save", "coral/frame.py:load"]}
{"id": "C144", "title": "Frames saved again", "statement": "In double arithmetic, load(save(frame)) of a spherical frame has the same class, radius and bounds, and saving the loaded frame again writes the very same file: the centre does not drift however often a frame is saved and loaded. The centre in the first file need not be the one the projection was made with (60 degrees west are saved as -59.99999999999999), but it differs from it by at most one part in 2^52.", "quantifier": "all class names, all radii and bounds (ints and doubles), all centres whose degrees are zero or doubles between 2^-1000 and 2^1000 in magnitude, of either sign", "why_tests_cant": "Whether degrees turned into radians and back are a fixed point of that trip depends on the last bit of every double: one value in nine moves on the first trip, and only an argument over all significands shows that none moves on the second.", "anchors": ["coral/frame.py:Frame.save", "coral/frame.py:load", "coral/proj.py:Proj.__init__"]}
{"id": "C145", "title": "Cells in double arithmetic", "statement": "With doubles, Frame.point(scale, point) gives the cell the projected point lies in, without error: for the returned whole numbers i, i*scale <= x < (i+1)*scale holds exactly in both directions, also for negative coordinates and for scales that are no binary fraction, as long as the point is within 2^50 cells of the origin. That cell is unique, and points further to the right or above never get a smaller cell. Scale zero raises ZeroDivisionError. Rounding down the quotient x / scale instead would not do: 1.0 / 0.1 is 10.0 in doubles, but 1.0 lies in cell 9 of size 0.1.", "quantifier": "all projected points with double coordinates up to 2^900 and all positive double scales from 2^-900 to 2^900 with |x| <= 2^50 * scale", "why_tests_cant": "The quotient, the difference with the remainder and the correction for negative remainders are each rounded; that the snapping undoes all errors for every pair of doubles is a matter of 2^128 pairs, and failures would sit on cell borders only.", "anchors": ["coral/frame.py:Frame.point"]}
{"id": "C146", "title": "How far the progress meter is off", "statement": "In double arithmetic and for totals up to 2^44, the bar of the progress meter is exact: it has as many marks as there are whole tenths done. The percentage is the whole percents done, except when exactly 29, 57 or 58 percent are done: then, and only then, it is one too low; it is never too high. For totals up to 2^53 neither the bar nor the percentage ever goes back while the count grows. A meter text shows only one bar and one percentage.", "quantifier": "all counts and totals with 0 <= n <= total <= 2^44 (2^53 for the last claim but one), all elapsed times for which the meter has a text; all texts", "why_tests_cant": "The percentage is two roundings away from the exact one; which counts are hit is decided for every total up to 2^44, of which a test sees a few.", "anchors": ["coral/tqdm.py:format_meter"]}
