#!/usr/bin/env python3
"""Write rocq/theories/ConformanceData.v: samples of /repo/testdata/modis_test_data.h5 (HDF5, read here without
h5py) and arrays of /repo/geotiepoints/tests.

Values of the former are float32 and are written exactly, as integers in units of 2^-30 degree.
"""
import ast
import os
import struct
import sys
import zlib

SRC = "/repo/testdata/modis_test_data.h5"
TESTS = "/repo/geotiepoints/tests"
CUBIC_ROWS = (0, 1, 8, 17, 30)
OUT = os.path.join(os.path.dirname(os.path.abspath(__file__)), "..", "rocq", "theories", "ConformanceData.v")


class H5:
    """Two-dimensional chunked data sets of an HDF5 file with superblock version 0."""

    def __init__(self, name):
        self.b = open(name, "rb").read()
        self.sets = {}
        self.group(struct.unpack_from("<QQ", self.b, 24 + 32)[1], "")

    def messages(self, addr):
        b = self.b
        _, _, n, _, size = struct.unpack_from("<BBHII", b, addr)
        out, blocks = [], [(addr + 16, size)]
        while blocks and len(out) < n:
            p, size = blocks.pop(0)
            end = p + size
            while p + 8 <= end and len(out) < n:
                kind, length = struct.unpack_from("<HH", b, p)
                out.append((kind, p + 8))
                if kind == 0x10:
                    blocks.append(struct.unpack_from("<QQ", b, p + 8))
                p += 8 + length
        return out

    def group(self, header, path):
        b = self.b
        messages = self.messages(header)
        for kind, d in messages:
            if kind == 0x11:
                tree, heap = struct.unpack_from("<QQ", b, d)
                names = struct.unpack_from("<Q", b, heap + 24)[0]
                for h, name in self.entries(tree, names):
                    self.group(h, path + name)
                return
        self.dataset(messages, path)

    def entries(self, a, names):
        b = self.b
        if b[a:a + 4] == b"TREE":
            n = struct.unpack_from("<H", b, a + 6)[0]
            for i in range(n):
                yield from self.entries(struct.unpack_from("<Q", b, a + 32 + 16 * i)[0], names)
        else:
            for i in range(struct.unpack_from("<H", b, a + 6)[0]):
                o, h = struct.unpack_from("<QQ", b, a + 8 + 40 * i)
                yield h, b[names + o:b.index(b"\0", names + o)].decode()

    def dataset(self, messages, path):
        b = self.b
        for kind, d in messages:
            if kind == 1:
                shape = struct.unpack_from("<%dQ" % b[d + 1], b, d + 8)
            elif kind == 8:
                layout = struct.unpack_from("<Q", b, d + 3)[0], struct.unpack_from("<%dI" % b[d + 2], b, d + 11)
        self.sets[path] = shape, layout

    def chunks(self, a, nd):
        level, n = struct.unpack_from("<BH", self.b, a + 5)
        p = a + 24
        for _ in range(n):
            size = struct.unpack_from("<I", self.b, p)[0]
            offsets = struct.unpack_from("<%dQ" % nd, self.b, p + 8)
            child = struct.unpack_from("<Q", self.b, p + 8 + 8 * nd)[0]
            p += 16 + 8 * nd
            if level:
                yield from self.chunks(child, nd)
            else:
                yield size, offsets, child

    def read(self, path):
        """float32, filters shuffle and deflate."""
        (rows, cols), (a, dims) = self.sets[path]
        out = [[None] * cols for _ in range(rows)]
        ch, cw = dims[0], dims[1]
        for size, offsets, c in self.chunks(a, len(dims)):
            raw = zlib.decompress(self.b[c:c + size])
            n = len(raw) // 4
            plain = bytearray(len(raw))
            for k in range(4):
                plain[k::4] = raw[k * n:(k + 1) * n]
            values = struct.unpack("<%df" % n, bytes(plain))
            for i in range(ch):
                for j in range(cw):
                    y, x = offsets[0] + i, offsets[1] + j
                    if y < rows and x < cols:
                        out[y][x] = values[i * cw + j]
        return out


def z(x):
    v = x * 2 ** 30
    assert v == int(v), x
    return "%d" % int(v) if v >= 0 else "(%d)" % int(v)


def arrays(name):
    """Arguments of np.array in the assignments of a test module."""
    tree = ast.parse(open(os.path.join(TESTS, name)).read())
    found = {}
    for node in ast.walk(tree):
        if isinstance(node, ast.Assign) and isinstance(node.value, ast.Call) and getattr(node.value.func, "attr", "") == "array":
            target = node.targets[0]
            found[getattr(target, "id", getattr(target, "attr", None))] = ast.literal_eval(node.value.args[0])
    return found


def matrix(name, rows):
    """A matrix in units of 10^-8."""
    def one(x):
        v = round(x * 10 ** 8)
        return "%d" % v if v >= 0 else "(%d)" % v
    return ["Definition %s : list (list Z) := [" % name + ";\n  ".join("[" + "; ".join(one(x) for x in r) + "]" for r in rows) + "]."]


def tests():
    out = ["(** Arrays of geotiepoints/tests in units of 10^-8 *)"]
    a = arrays("test_interpolator.py")["expected"]
    out += matrix("cubic_rows", [a[r] for r in CUBIC_ROWS])
    a = arrays("test_geointerpolator.py")
    out += matrix("ties_exp1", a["TIES_EXP1"])
    out += matrix("ties_exp4", a["TIES_EXP4"])
    out += matrix("ties_exp6", a["TIES_EXP6"])
    a = arrays("test_viiinterpolator.py")
    for n in ("LON_1", "LAT_1", "LON_2", "LAT_2", "LON_3", "LAT_3"):
        out += matrix("vii_" + n.lower(), a["TEST_" + n])
    a = arrays("test_multilinear.py")
    out += matrix("ml_arr1", a["ARR1"])
    out += matrix("ml_res1", a["RES1"])
    return out


def main():
    h = H5(SRC)
    d = {k: h.read(k) for k in h.sets}
    out = ["(** Samples of testdata/modis_test_data.h5 and arrays of the tests, written by tools/gen_conformance.py. The samples: lon, lat (and satellite zenith angle)",
           "    in units of 2^-30 degree, exactly as stored (float32). *)",
           "From Coq Require Import ZArith List.", "Import ListNotations.", "Open Scope Z_scope.", ""]
    groups = [[0, 1, 2], [400, 401], [676, 677], [1351, 1352, 1353]]
    out.append("(** columns of the 1 km arrays (20 rows): column, then lon, lat and satz of each row *)")
    out.append("Definition tie_1km : list (Z * list (Z * Z * Z)) := [")
    cols = [c for g in groups for c in g]
    out.append(";\n".join("  (%d, [%s])" % (c, "; ".join("(%s, %s, %s)" % (
        z(d["lon_1km"][r][c]), z(d["lat_1km"][r][c]), z(d["satz_1km"][r][c])) for r in range(20))) for c in cols) + "].")
    for f, name, rows in ((2, "500m", (0, 20, 39)), (4, "250m", (0, 39))):
        out.append("(** %s: row, column, lon, lat *)" % name)
        out.append("Definition fine_%s : list (Z * Z * (Z * Z)) := [" % name)
        px = [c * f + k for g in groups for c in g[:1] for k in (0, f - 1)] + [1354 * f - 1]
        out.append(";\n".join("  " + "; ".join("(%d, %d, (%s, %s))" % (
            r, i, z(d["lon_" + name][r][i]), z(d["lat_" + name][r][i])) for i in px) for r in rows) + "].")
    groups5 = [[0, 1, 2], [134, 135, 136], [268, 269, 270]]
    out.append("(** every fifth column and row from the third one: 4 rows *)")
    out.append("Definition tie_5km : list (Z * list (Z * Z * Z)) := [")
    out.append(";\n".join("  (%d, [%s])" % (c, "; ".join("(%s, %s, %s)" % (
        z(d["lon_1km"][r][5 * c + 2]), z(d["lat_1km"][r][5 * c + 2]), z(d["satz_1km"][r][5 * c + 2])) for r in (2, 7, 12, 17)))
        for g in groups5 for c in g) + "].")
    out.append("(** 1 km: row, column, lon, lat *)")
    out.append("Definition fine_1km : list (Z * Z * (Z * Z)) := [")
    px = [0, 4, 674, 1345, 1353]
    out.append(";\n".join("  " + "; ".join("(%d, %d, (%s, %s))" % (
        r, i, z(d["lon_1km"][r][i]), z(d["lat_1km"][r][i])) for i in px) for r in (0, 19)) + "].")
    out += tests()
    text = "\n".join(out) + "\n"
    with open(OUT, "w") as f:
        f.write(text)
    sys.stdout.write("%d bytes\n" % len(text))


main()
