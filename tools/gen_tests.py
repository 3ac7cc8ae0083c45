#!/usr/bin/env python3
"""Writes the project's tests (/repo/tests) as examples about the model: theories/Tests*.v.

The tests are read as text (ast); nothing of the project is imported or run.  Draws made after
random.seed(n) are computed with the random module of Python's standard library.
A test that cannot be expressed is listed with its reason at the end of the file it would be in.
"""
import ast
import os
import random
from fractions import Fraction

HERE = os.path.dirname(os.path.abspath(__file__))
OUT = os.path.join(HERE, "..", "rocq", "theories")
TESTS = "/repo/tests"


class Skip(Exception):
    pass


def cstr(s):
    if all(32 <= ord(c) < 127 and c != '"' for c in s):
        return 'str "%s"' % s
    return "[" + "; ".join("%d%%N" % ord(c) for c in s) + "]"


def lst(xs):
    return "[" + "; ".join(xs) + "]"


def num(x):
    f = Fraction(str(x)) if not isinstance(x, int) else Fraction(x)
    if f.denominator == 1:
        return "fint (%d)" % f.numerator if f.numerator < 0 else "fint %d" % f.numerator
    d = 1
    while (f * d).denominator != 1:
        d *= 10
    return "dec (%d) %d" % ((f * d).numerator, d)


def zlit(n):
    return "(%d)%%Z" % n if n < 0 else "%d%%Z" % n


def opt(x, f):
    return "None" if x is None else "(Some (%s))" % f(x)


class Vec(list):
    pass


class Mgr:
    def __init__(self, ids):
        self.ids, self.calls, self.base = ids, [], None

    def term(self):
        if self.base:
            return self.base
        return "(manager %s %s)" % (lst(map(cstr, self.ids)), lst(self.calls))


class Val:
    """Result of a manager call, with the constructor of its value."""
    def __init__(self, term, kind):
        self.term, self.kind = term, kind


class Pair:
    def __init__(self, term):
        self.term, self.parts = term, {}


class Half:
    def __init__(self, pair, i):
        self.pair, self.i = pair, i


class Model:
    def __init__(self, cls, kw):
        self.cls, self.kw, self.runs, self.followups = cls, kw, None, None


class Result:
    def __init__(self, terms):
        self.terms = terms


class SampleResult:
    def __init__(self, terms):
        self.terms = terms


class Obj:
    def __init__(self, addr):
        self.addr = addr


class Attr:
    def __init__(self, obj, name):
        self.obj, self.name = obj, name


class Freq:
    def __init__(self, term):
        self.term = term


class Renamed(Freq):
    pass


CLASSES = {
    "KMeansConstrainedClustering": "kmeans", "HierarchicalConstrainedClustering": "hierarchical",
    "DBScanConstrainedClustering": "dbscan", "AffinityPropagationConstrainedClustering": "affinity",
    "MPCKMeansConstrainedClustering": "mpckmeans", "SpectralConstrainedClustering": "spectral",
    "ClustersBasedConstraintsSampling": "sampling"}
PREDICTED = {"kmeans": "k_predicted fvec", "hierarchical": "h_predicted fvec", "dbscan": "db_predicted",
             "affinity": "(fun s => s)", "mpckmeans": "mp_predicted spec_float"}

SHUFFLES, SAMPLES = set(), set()


def shuffle_table(seed):
    rows = []
    for n in range(0, 13):
        random.seed(seed)
        l = list(range(n))
        random.shuffle(l)
        rows.append("(%d, %d, %s)" % (n, n, lst(map(str, l))))
    return rows


def sample_table(seed):
    rows = []
    for n in range(0, 12):
        for k in range(0, min(n, 4) + 1):
            random.seed(seed)
            rows.append("(%d, %d, %s)" % (n, k, lst(map(str, random.sample(list(range(n)), k)))))
    return rows


class Test:
    def __init__(self, fn):
        self.fn, self.env, self.conj, self.objs = fn, {}, [], []
        self.after = []
        self.notes, self.left_out = [], []

    # -- expressions ------------------------------------------------------------------
    def ev(self, e):
        if isinstance(e, ast.Constant):
            return e.value
        if isinstance(e, ast.UnaryOp) and isinstance(e.op, ast.USub):
            return -self.ev(e.operand)
        if isinstance(e, ast.List):
            return [self.ev(x) for x in e.elts]
        if isinstance(e, ast.Tuple):
            return tuple(self.ev(x) for x in e.elts)
        if isinstance(e, ast.Dict):
            return {self.ev(k): self.ev(v) for k, v in zip(e.keys, e.values)}
        if isinstance(e, ast.Name):
            if e.id in self.env:
                return self.env[e.id]
            raise Skip("name " + e.id)
        if isinstance(e, ast.Attribute):
            o = self.ev(e.value)
            return Attr(o, e.attr)
        if isinstance(e, ast.Call):
            return self.call(e)
        raise Skip("expression " + ast.dump(e)[:60])

    def call(self, e):
        f = e.func
        kw = {}
        if isinstance(f, ast.Name) and f.id in ("csr_matrix",) or isinstance(f, ast.Attribute) and f.attr == "array":
            v = self.ev(e.args[0])
            if v and isinstance(v[0], list):
                v = v[0]
            return Vec(v)
        if isinstance(f, ast.Name) and f.id == "list":
            a = e.args[0]
            if isinstance(a, ast.Call) and isinstance(a.func, ast.Attribute) and a.func.attr == "keys":
                return list(self.ev(a.func.value).keys())
            raise Skip("list()")
        for k in e.keywords:
            kw[k.arg] = self.ev(k.value)
        if isinstance(f, ast.Name):
            if f.id == "BinaryConstraintsManager":
                return Mgr(kw["list_of_data_IDs"])
            if f.id in CLASSES:
                return self.model(CLASSES[f.id], kw)
            if f.id == "Cluster":
                return self.new_object(kw)
            if f.id == "compute_clusters_frequency":
                d = kw["clustering_result"]
                return Freq("(compute_clusters_frequency spec_float (fun a b => fdiv (fnat a) (fnat b)) ascending %s)" % self.zdict(d))
            if f.id == "rename_clusters_by_order":
                return Renamed("(rename_clusters_by_order %s)" % self.zdict(kw["clusters"]))
            if f.id == "load_constraints_manager_from_json":
                m = Mgr([])
                m.base = "(reloaded %s)" % self.saved.term()
                self.conj.append("succeeds (load_text (to_json_text %s)) = true" % self.saved.term())
                return m
            if f.id in ("managing_factory", "sampling_factory", "clustering_factory"):
                return self.factory(f.id, kw)
            raise Skip("function " + f.id)
        o = self.ev(f.value)
        if isinstance(o, Mgr):
            return self.mgr_call(o, f.attr, kw)
        if isinstance(o, Model):
            return self.model_call(o, f.attr, kw)
        if isinstance(o, Obj):
            return self.obj_call(o, f.attr, kw)
        raise Skip("method " + f.attr)

    # -- manager ----------------------------------------------------------------------
    def mgr_call(self, m, name, kw):
        if name == "get_min_and_max_number_of_clusters":
            return Pair(m.term())
        if name == "to_json":
            self.saved = m
            return None
        g = lambda k: "(%s)" % cstr(kw[k])
        table = {
            "add_data_ID": ("CallAddDataID %s", ["data_ID"], "VBool", True),
            "delete_data_ID": ("CallDeleteDataID %s", ["data_ID"], "VBool", True),
            "get_list_of_managed_data_IDs": ("CallManagedIDs", [], "VIds", False),
            "delete_constraint": ("CallDeleteConstraint %s %s", ["data_ID1", "data_ID2"], "VBool", True),
            "get_added_constraint": ("CallGetAdded %s %s", ["data_ID1", "data_ID2"], "VAdded", False),
            "get_inferred_constraint": ("CallGetInferred %s %s", ["data_ID1", "data_ID2"], "VInferred", False),
            "get_connected_components": ("CallComponents", [], "VComponents", False),
            "check_completude_of_constraints": ("CallCompletude", [], "VBool", False),
            "get_list_of_involved_data_IDs_in_a_constraint_conflict":
                ("CallConflict %s %s %s", ["data_ID1", "data_ID2", "constraint_type"], "VConflict", False),
            "add_constraint": ("CallAddConstraint %s %s %s 1", ["data_ID1", "data_ID2", "constraint_type"], "VBool", True),
        }
        if name not in table:
            raise Skip("manager method " + name)
        fmt, args, kind, writes = table[name]
        c = fmt % tuple(g(a) for a in args)
        v = Val("answer %s (%s)" % (m.term(), c), kind)
        if writes:
            m.calls = m.calls + [c]
        return v

    def expected(self, kind, v):
        if kind == "VBool":
            return "VBool " + ("true" if v else "false")
        if kind == "VIds":
            return "VIds " + lst(map(cstr, v))
        if kind == "VAdded":
            return "VAdded " + opt(v, lambda p: "%s, %d%%Q" % (cstr(p[0]), int(p[1])))
        if kind == "VInferred":
            return "VInferred " + opt(v, cstr)
        if kind == "VComponents":
            return "VComponents " + lst(lst(map(cstr, c)) for c in v)
        if kind == "VConflict":
            return "VConflict " + opt(v, lambda l: lst(map(cstr, l)))
        raise Skip(kind)

    # -- models -----------------------------------------------------------------------
    def zdict(self, d):
        return lst("(%s, %s)" % (cstr(k), zlit(v)) for k, v in d.items())

    def vectors(self, d):
        if d is None or isinstance(d, str):
            raise Skip("vectors that are not a dictionary")
        if any(not isinstance(v, Vec) for v in d.values()):
            # the only such test fails on a missing key before a vector is read
            return lst("(%s, [%s])" % (cstr(k), num(v)) for k, v in d.items())
        return lst("(%s, %s)" % (cstr(k), lst(map(num, v))) for k, v in d.items())

    def model(self, cls, kw):
        m = Model(cls, kw)
        if cls == "kmeans":
            m.term = 'make_kmeans spec_float SFltb fzero (%s) %s (%s)' % (
                cstr(kw.get("model", "COP")), zlit(kw.get("max_iteration", 150)), num(kw.get("tolerance", 0.0001)))
        elif cls == "hierarchical":
            m.term = "make_hierarchical (%s)" % cstr(kw.get("linkage", "ward"))
        elif cls == "dbscan":
            m.term = "make_dbscan spec_float SFleb fnat (%s) %s" % (num(kw.get("eps", 0.5)), zlit(kw.get("min_samples", 5)))
        elif cls == "affinity":
            m.term = "make_affinity %s %s true" % (zlit(kw.get("max_iteration", 150)), zlit(kw.get("convergence_iteration", 10)))
        elif cls == "mpckmeans":
            m.term = "make_mpckmeans spec_float mpc_ops (%s) %s (%s)" % (
                cstr(kw.get("model", "MPC")), zlit(kw.get("max_iteration", 150)), num(kw.get("w", 1)))
        elif cls == "spectral":
            m.term = "make_spectral (%s) %s" % (cstr(kw.get("model", "SPEC")), opt(kw.get("nb_components"), zlit))
        else:
            for k in ("without_added_constraints", "without_inferred_constraints"):
                if not isinstance(kw.get(k, True), bool):
                    raise Skip("a flag that is not a boolean")
            b = lambda k: "true" if kw.get(k, True) else "false"
            m.term = "make_options %s %s %s %s" % (opt(kw.get("clusters_restriction"), cstr), opt(kw.get("distance_restriction"), cstr),
                                                  b("without_added_constraints"), b("without_inferred_constraints"))
        return m

    def model_call(self, m, name, kw):
        if name == "cluster":
            if not isinstance(kw["constraints_manager"], Mgr):
                raise Skip("a manager that is not a manager")
            mg = kw["constraints_manager"].term()
            v = self.vectors(kw["vectors"])
            nb = opt(kw.get("nb_clusters"), zlit)
            seed = m.kw.get("random_seed")
            args = "%s %s %s" % (mg, v, nb)
            if m.cls == "kmeans":
                if seed is None:
                    SHUFFLES.add(2)
                    sh = ["(@rev pystr)", "(shuffled shuffle_seed_2)"]
                    self.notes.append("unseeded: checked for two shuffles")
                else:
                    SHUFFLES.add(seed)
                    sh = ["(shuffled shuffle_seed_%d)" % seed]
                m.runs = ["(kmeans_run %s %s (%s) %s)" % (s, zlit(m.kw.get("max_iteration", 150)), num(m.kw.get("tolerance", 0.0001)), args) for s in sh]
            elif m.cls == "hierarchical":
                m.runs = ["(hierarchical_run (%s) %s)" % (cstr(m.kw.get("linkage", "ward")), args)]
            elif m.cls == "dbscan":
                m.runs = ["(dbscan_run %s (%s) %s %s)" % (s, num(m.kw.get("eps", 0.5)), zlit(m.kw.get("min_samples", 5)), args)
                          for s in ("(@dedup pystr _)", "(fun l => rev (dedup l))")]
                self.notes.append("list(set(l)): checked for two orders")
            elif m.cls == "affinity":
                m.runs = ["(affinity_run %s %s %s)" % (zlit(m.kw.get("max_iteration", 150)), zlit(m.kw.get("convergence_iteration", 10)), args)]
                self.notes.append("unseeded: checked without noise")
            elif m.cls == "mpckmeans":
                m.runs = ["(mpckmeans_run (fun _ _ => %d) (%s) (%s) %s (%s) %s)" % (
                    first, sh, cstr(m.kw.get("model", "MPC")), zlit(m.kw.get("max_iteration", 150)), num(m.kw.get("w", 1)), args)
                    for first, sh in ((0, "fun _ l => l"), (4, "fun _ l => l"), (9, "fun _ l => rev l"))]
                self.notes.append("unseeded: checked for three draws")
            elif m.cls == "spectral":
                if not self.raising:
                    raise Skip("needs eigenvectors and the KMeans of scikit-learn")
                m.runs = ["(spectral_run %s)" % args]
            return Result(list(m.runs))
        if name == "compute_predicted_clusters":
            if m.runs is None:
                return Result(["(Ok (Hierarchical.compute_predicted_clusters fvec %s (%s) (fresh_hier fvec)))" % (zlit(kw["nb_clusters"]), cstr(kw["by"]))])
            return Result(["(fail_or %s (fun s => Ok (Hierarchical.compute_predicted_clusters fvec %s (%s) (fst s))))" % (
                r, zlit(kw["nb_clusters"]), cstr(kw["by"])) for r in m.runs])
        if name == "sample":
            if not isinstance(kw.get("constraints_manager"), Mgr):
                raise Skip("a manager that is not a manager")
            if not isinstance(kw.get("nb_to_select"), int):
                raise Skip("a number to select that is not an integer")
            for k in ("clustering_result", "vectors"):
                if isinstance(kw.get(k), str):
                    raise Skip("%s that is not a dictionary" % k)
            seed = m.kw.get("random_seed")
            if seed is None:
                raise Skip("unseeded draw")
            SAMPLES.add(seed)
            b = lambda k: "true" if m.kw.get(k, True) else "false"
            t = "(sample_run (sampled sample_seed_%d) %s %s %s %s %s %s %s %s)" % (
                seed, opt(m.kw.get("clusters_restriction"), cstr), opt(m.kw.get("distance_restriction"), cstr),
                b("without_added_constraints"), b("without_inferred_constraints"), kw["constraints_manager"].term(),
                zlit(kw["nb_to_select"]), opt(kw.get("clustering_result"), self.zdict), opt(kw.get("vectors"), self.vectors))
            return SampleResult([t])
        raise Skip("model method " + name)

    # -- factories --------------------------------------------------------------------
    def factory(self, name, kw):
        if name == "managing_factory":
            return Freq("managing_factory %s %s" % (lst(map(cstr, kw["list_of_data_IDs"])), opt(kw.get("manager"), cstr)))
        if name == "sampling_factory":
            m = Model("sampling", {})
            m.term = "sampling_factory (%s) no_sampling_kargs" % cstr(kw["algorithm"])
            return m
        fields = ["model", "max_iteration", "convergence_iteration", "absolute_must_links", "eps", "min_samples", "linkage", "tolerance", "w", "nb_components"]
        enc = {"model": cstr, "linkage": cstr, "eps": num, "tolerance": num, "w": num, "nb_components": lambda z: "Some (%s)" % zlit(z)}
        ks = " ".join(opt(kw.get(f), enc.get(f, zlit)) for f in fields)
        m = Model("factory", kw)
        m.term = "clustering_factory spec_float SFleb SFltb fzero half (dec 1 10000) (fint 1) mpc_ops %s (mkClusteringKargs spec_float %s)" % (
            opt(kw.get("algorithm"), cstr), ks)
        return m

    # -- Cluster objects --------------------------------------------------------------
    def new_object(self, kw):
        vs = self.vectors(kw["vectors"])
        c = "construct fvec fmean %s %s %s %s %s" % (
            vs, zlit(kw["cluster_ID"]), zlit(kw["clustering_iteration"]),
            opt(kw.get("children"), lambda l: lst(str(o.addr) for o in l)),
            opt(kw.get("members"), lambda l: lst(map(cstr, l))))
        if self.raising:
            self.pending = "snd (%s %s)" % (c, self.heap())
            if kw.get("children") is not None and kw.get("members") is not None or kw.get("children") is None and kw.get("members") is None:
                return None
        self.objs.append(c)
        return Obj(len([o for o in self.objs if o.startswith("construct")]) - 1)

    def heap(self):
        t = "[]"
        for c in self.objs:
            t = "(fst (%s %s))" % (c, t)
        return t

    def obj_call(self, o, name, kw):
        if name == "add_new_children":
            self.objs.append("add_new_children fvec fmean %d %s %s" % (o.addr, lst(str(c.addr) for c in kw["new_children"]), zlit(kw["new_clustering_iteration"])))
            return None
        if name in ("get_cluster_size", "to_dict"):
            return Attr(o, name)
        raise Skip("Cluster method " + name)

    def jval(self, v):
        if isinstance(v, dict):
            return "JObj " + lst("(%s, %s)" % (cstr(k), self.jval(x)) for k, x in v.items())
        if isinstance(v, list):
            return "JArr " + lst(self.jval(x) for x in v)
        if isinstance(v, str):
            return "JStr (%s)" % cstr(v)
        return "JNum (%s)" % cstr(str(v))

    # -- statements -------------------------------------------------------------------
    raising = False
    saved = None

    def run(self):
        for s in self.fn.body:
            self.stmt(s)
        if not self.conj:
            raise Skip("; ".join(self.left_out) or "no assertion about the model")
        self.notes += ["left out: " + x for x in self.left_out]

    def ok(self, v):
        """A statement whose call must not fail."""
        if isinstance(v, Val):
            self.conj.append("succeeds (%s) = true" % v.term)
        elif isinstance(v, Result):
            for t in v.terms:
                self.conj.append("succeeds (result %s) = true" % t)

    def stmt(self, s):
        if isinstance(s, ast.Expr):
            if isinstance(s.value, ast.Constant):
                return
            self.ok(self.ev(s.value))
        elif isinstance(s, ast.Assign):
            t = s.targets[0]
            v = self.ev(s.value)
            if isinstance(t, ast.Tuple) and isinstance(v, Pair):
                for i, n in enumerate(t.elts):
                    self.env[n.id] = Half(v, i)
                return
            if isinstance(v, Val) and v.kind != "VComponents":
                self.ok(v)
            self.env[t.id] = v
        elif isinstance(s, ast.With):
            ctx = s.items[0].context_expr
            exn = ctx.args[0].id
            if exn not in ("ValueError", "KeyError"):
                raise Skip("raises " + exn)
            self.raising, self.pending = True, None
            try:
                for b in s.body:
                    v = self.ev(b.value)
            except Skip as e:
                self.left_out.append(str(e))
                return
            finally:
                self.raising = False
            if self.pending:
                self.conj.append("raises (%s) %s" % (self.pending, exn))
            elif isinstance(v, Val):
                self.conj.append("raises (%s) %s" % (v.term, exn))
            elif isinstance(v, (Result, SampleResult)):
                for t in v.terms:
                    self.conj.append("raises (result %s) %s" % (t, exn))
            elif isinstance(v, (Model, Freq)):
                self.conj.append("raises (%s) %s" % (v.term, exn))
            else:
                raise Skip("raises")
        elif isinstance(s, ast.Assert):
            self.check(s.test)
        else:
            raise Skip("statement " + type(s).__name__)

    def check(self, t):
        if isinstance(t, ast.UnaryOp) and isinstance(t.op, ast.Not):
            v = self.ev(t.operand)
            if isinstance(v, Val) and v.kind == "VIds":
                self.conj.append("%s = Ok (VIds [])" % v.term)
            elif isinstance(v, SampleResult):
                self.conj += ["result %s = Ok []" % x for x in v.terms]
            elif isinstance(v, Freq):
                self.conj.append("%s = Ok []" % v.term)
            else:
                raise Skip("not")
            return
        if isinstance(t, ast.Call) and isinstance(t.func, ast.Name) and t.func.id == "isinstance":
            v = self.ev(t.args[0])
            if isinstance(v, Mgr):
                return
            if isinstance(v, Freq):
                self.conj.append("succeeds (%s) = true" % v.term)
                return
            if isinstance(v, Model):
                if v.cls == "factory":
                    self.conj.append("is_%s (%s) = true" % (CLASSES[t.args[1].id], v.term))
                else:
                    self.conj.append("succeeds (%s) = true" % v.term)
                return
            raise Skip("isinstance")
        if isinstance(t, ast.Call) and isinstance(t.func, ast.Attribute) and t.func.attr == "isclose":
            v, x = self.ev(t.args[0]), self.ev(t.args[1])
            return self.check_attr(v, x)
        if isinstance(t, ast.Compare):
            l, r = self.ev(t.left), self.ev(t.comparators[0])
            return self.compare(l, r)
        v = self.ev(t)
        if isinstance(v, Model):
            self.conj.append("succeeds (%s) = true" % v.term)
        elif isinstance(v, Attr) and v.name == "dict_of_predicted_clusters":
            self.conj += ["predicted (%s) %s = true" % (PREDICTED[v.obj.cls], r) for r in v.obj.runs]
        elif isinstance(v, Result):
            self.conj += ["succeeds (result %s) = true" % r for r in v.terms]
        else:
            raise Skip("assert")

    def compare(self, l, r):
        if isinstance(l, Val) and isinstance(r, Val):
            self.conj.append("%s = %s" % (l.term, r.term))
            self.conj.append("succeeds (%s) = true" % l.term)
        elif isinstance(l, Val):
            self.conj.append("%s = Ok (%s)" % (l.term, self.expected(l.kind, r)))
        elif isinstance(l, Half):
            l.pair.parts[l.i] = r
            if len(l.pair.parts) == 2:
                self.conj.append("ranges %s = range %d %d" % (l.pair.term, l.pair.parts[0], l.pair.parts[1]))
        elif isinstance(l, Result):
            self.conj += ["gives (result %s) %s" % (x, self.zdict(r)) for x in l.terms]
        elif isinstance(l, SampleResult):
            self.conj += ["result %s = Ok %s" % (x, lst("(%s, %s)" % (cstr(a), cstr(b)) for a, b in r)) for x in l.terms]
        elif isinstance(l, Renamed):
            self.conj.append("same_dict Z.eqb (%s) %s = true" % (l.term, self.zdict(r)))
        elif isinstance(l, Freq):
            self.conj.append("same_dict float_eqb (%s) %s = true" % (l.term, lst("(%s, %s)" % (zlit(k), num(v)) for k, v in r.items())))
        elif isinstance(l, Attr):
            self.check_attr(l, r)
        else:
            raise Skip("comparison")

    def check_attr(self, a, r):
        o, n = a.obj, a.name
        if isinstance(o, Obj):
            h = self.heap()
            if n == "members":
                self.conj.append("option_map (o_members fvec) (nth_error %s %d) = Some %s" % (h, o.addr, lst(map(cstr, r))))
            elif n == "clustering_iteration":
                self.conj.append("option_map (o_iteration fvec) (nth_error %s %d) = Some %s" % (h, o.addr, zlit(r)))
            elif n == "get_cluster_size":
                self.conj.append("option_map (fun c => length (o_members fvec c)) (nth_error %s %d) = Some %d" % (h, o.addr, r))
            elif n == "to_dict":
                self.conj.append("to_dict fvec 900 %s %d = Ok (%s)" % (h, o.addr, self.jval(r)))
            else:
                raise Skip("attribute " + n)
        elif isinstance(o, Model):
            if n == "dict_of_predicted_clusters":
                self.conj += ["gives (result %s) %s" % (x, self.zdict(r)) for x in o.runs]
                return
            if n in ("random_seed", "model") or o.cls == "spectral":
                return      # not kept by the model of the code
            if o.cls == "sampling":
                f = {"clusters_restriction": "o_clusters", "distance_restriction": "o_distance"}[n]
                self.conj.append("fail_or (%s) (fun o => Ok (%s o)) = Ok %s" % (o.term, f, opt(r, cstr)))
                return
            if o.cls == "factory":
                self.conj.append("has_%s (%s) (%s) = true" % (n, o.term, cstr(r) if isinstance(r, str) else num(r) if n in ("eps", "w", "tolerance") else zlit(r)))
                return
            acc = {"kmeans": {"max_iteration": "Z.of_nat (kp_max_iteration spec_float p)", "tolerance": "kp_tolerance spec_float p"},
                   "dbscan": {"eps": "db_eps spec_float p", "min_samples": "Z.of_nat (db_min_samples spec_float p)"},
                   "affinity": {"max_iteration": "Z.of_nat (ap_max_iteration p)", "convergence_iteration": "Z.of_nat (ap_convergence_iteration p)"},
                   "mpckmeans": {"max_iteration": "Z.of_nat (mp_max_iteration spec_float p)", "w": "mp_w spec_float p"},
                   "hierarchical": {"linkage": "p"}}
            if n not in acc.get(o.cls, {}):
                raise Skip("attribute " + n)
            v = cstr(r) if isinstance(r, str) else num(r) if n in ("eps", "w", "tolerance") else zlit(r)
            self.conj.append("fail_or (%s) (fun p => Ok (%s)) = Ok (%s)" % (o.term, acc[o.cls][n], v))
        else:
            raise Skip("attribute")


FILES = [
    ("TestsManager", ["constraints/test_binary.py", "constraints/test_factory.py"]),
    ("TestsSampling", ["sampling/test_cluster_based.py", "sampling/test_factory.py", "sampling/test_factory_random.py",
                       "sampling/test_factory_random_in_same_cluster.py", "sampling/test_factory_farthest_in_same_cluster.py",
                       "sampling/test_factory_closest_in_different_clusters.py"]),
    ("TestsClustering", ["clustering/test_abstract.py", "clustering/test_factory.py", "clustering/test_kmeans.py",
                         "clustering/test_dbscan.py", "utils/test_frequency.py"]),
    ("TestsHierarchical", ["clustering/test_hierarchical.py"]),
    ("TestsAffinity", ["clustering/test_affinity_propagation.py", "clustering/test_mpckmeans.py", "clustering/test_spectral.py"]),
]


def main():
    for name, files in FILES:
        SHUFFLES.clear()
        SAMPLES.clear()
        body, skipped, n = [], [], 0
        for f in files:
            tree = ast.parse(open(os.path.join(TESTS, f)).read())
            for fn in tree.body:
                if not (isinstance(fn, ast.FunctionDef) and fn.name.startswith("test_")):
                    continue
                t = Test(fn)
                try:
                    t.run()
                except Skip as e:
                    skipped.append("%s:%d-%d %s: %s" % (f, fn.lineno, fn.end_lineno, fn.name, e))
                    continue
                n += 1
                note = "".join(" (%s)" % x for x in sorted(set(t.notes)))
                body.append("(** %s:%d-%d%s *)\nExample %s :\n  %s.\nProof. vm_compute. repeat split. Qed.\n" % (
                    f, fn.lineno, fn.end_lineno, note, fn.name, " /\\\n  ".join(t.conj)))
        head = ["(** * The project's tests, run on the model",
                "",
                "    Written by tools/gen_tests.py from /repo/tests: %s." % ", ".join(files),
                "    %d tests; see TestLib.v for the numbers and the random draws. *)" % n,
                "",
                "From Coq Require Import String List Bool Arith NArith ZArith QArith SpecFloat.",
                "From Verif Require Import Base Manager MinMax Json Rename KMeans Hierarchical Dbscan Affinity Mpckmeans Spectral Sampling Objects Frequency Factories TestLib.",
                "Import ListNotations.",
                "Open Scope nat_scope.",
                ""]
        for s in sorted(SHUFFLES):
            head.append("(** [random.seed(%d); random.shuffle(l)] for lists of length 0 to 12. *)" % s)
            head.append("Definition shuffle_seed_%d : list (nat * nat * list nat) :=\n  %s.\n" % (s, lst(shuffle_table(s)).replace("); (", ");\n   (")))
        for s in sorted(SAMPLES):
            head.append("(** [random.seed(%d); random.sample(l, k)] for lists of length 0 to 11. *)" % s)
            head.append("Definition sample_seed_%d : list (nat * nat * list nat) :=\n  %s.\n" % (s, lst(sample_table(s)).replace("); (", ");\n   (")))
        if skipped:
            body.append("(** Not expressed:\n%s. *)" % ";\n".join("    - " + s for s in skipped))
        open(os.path.join(OUT, name + ".v"), "w").write("\n".join(head) + "\n" + "\n".join(body) + "\n")
        print(name, n, "tests", len(skipped), "skipped")
        for s in skipped:
            print("   ", s)


if __name__ == "__main__":
    main()
