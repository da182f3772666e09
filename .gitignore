*.cache
rocq/.*.cache
