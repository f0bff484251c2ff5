*.vo
*.vok
*.vos
*.glob
*.aux
.*.aux
*.cache
.Makefile.d
rocq/Makefile
rocq/Makefile.conf
__pycache__/
